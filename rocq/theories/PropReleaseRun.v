(** A release, and the check of the sizes of files (C93, C94). *)
From Coq Require Import Ascii String Arith NArith List Bool Lia Permutation Sorted.
From Verif Require Import ReleaseRun JsText Release ReleaseVersion ReleaseNotes ReleaseLog.
Import ListNotations.
Open Scope N_scope.

(** whatever the files are *)
Theorem C93_commands :
  forall git arg desc date t,
  let d := version_and_commit git arg desc date t in
  answered git (d_cmds d) /\ entries (d_repo d) = entries t /\
  exists v cm tm, message_of (js "chore: release v") v desc cm /\ message_of (js "Release v") v desc tm /\
  begun (plan (js "v" ++ v) cm tm) (rev (d_cmds d)) /\
  (d_repo d <> t -> In (Rev_parse (js "v" ++ v), Throws) (d_cmds d)) /\
  (In (js "version_committed", js "true") (d_out d) <-> rev (d_cmds d) = plan (js "v" ++ v) cm tm).
Proof. exact L_C93_commands. Qed.
Print Assumptions C93_commands.

(** with a version in the file and readable fragments *)
Theorem C93_release :
  forall git arg desc date pre x post v w log l,
  asks arg v w -> version_at pre x post -> plain x v -> exact v -> NoDup (map fst l) ->
  (forall n o, In (n, o) l -> fragment_name n -> exists c z, o = Some c /\ worded c z) ->
  let t := Repo (Some (pre ++ x ++ post)) log (Some l) in
  let d := version_and_commit git arg desc date t in
  let run := rev (d_cmds d) in
  exists y cm tm fs rest ts log', plain y w /\ later v w /\ version_at pre y post /\
  message_of (js "chore: release v") y desc cm /\ message_of (js "Release v") y desc tm /\
  gathered l fs rest ts /\ logged y date ts log log' /\
  followed (plan (js "v" ++ y) cm tm) run /\
  (In (Rev_parse (js "v" ++ y), Throws) run -> d_repo d = Repo (Some (pre ++ y ++ post)) log' (Some l)) /\
  (~ In (Rev_parse (js "v" ++ y), Throws) run -> d_repo d = t) /\
  (In (Rev_parse (js "v" ++ y), Returns) run -> d_out d = told (js "already_released") y "true" /\ d_end d = Exit0) /\
  (In (Diff, Returns) run -> d_out d = told (js "version_committed") y "false" /\ d_end d = Exit0) /\
  (run = plan (js "v" ++ y) cm tm -> d_out d = told (js "version_committed") y "true" /\ d_end d = Exit0) /\
  (~ In (Rev_parse (js "v" ++ y), Returns) run -> ~ In (Diff, Returns) run -> run <> plan (js "v" ++ y) cm tm -> d_out d = [] /\ d_end d = Exit1).
Proof. exact L_C93_release. Qed.
Print Assumptions C93_release.

(** with a fragment that cannot be read: the manifest in the working tree has the new version, and that is all *)
Theorem C93_unreadable :
  forall git arg desc date pre x post v w log l n,
  asks arg v w -> version_at pre x post -> plain x v -> exact v ->
  In (n, None) l -> fragment_name n ->
  let t := Repo (Some (pre ++ x ++ post)) log (Some l) in
  let d := version_and_commit git arg desc date t in
  let run := rev (d_cmds d) in
  exists y, plain y w /\ later v w /\ version_at pre y post /\ (length run <= 3)%nat /\
  (run = [(Config_name, Returns); (Config_mail, Returns); (Rev_parse (js "v" ++ y), Throws)] ->
     d = Did (Repo (Some (pre ++ y ++ post)) log (Some l)) [] (rev run) Exit1) /\
  (run = [(Config_name, Returns); (Config_mail, Returns); (Rev_parse (js "v" ++ y), Returns)] ->
     d = Did t (told (js "already_released") y "true") (rev run) Exit0) /\
  (~ In (Config_name, Returns) run \/ ~ In (Config_mail, Returns) run -> d = Did t [] (rev run) Exit1).
Proof. exact L_C93_unreadable. Qed.
Print Assumptions C93_unreadable.

(** nothing is done *)
Theorem C93_bad_argument :
  forall git arg desc date t,
  ~ In arg [js "major"; js "minor"; js "patch"] ->
  version_and_commit git arg desc date t = Did t [] [] Exit1.
Proof. exact L_C93_bad_argument. Qed.
Print Assumptions C93_bad_argument.

Theorem C93_no_version :
  forall git arg desc date t,
  (forall f, cargo t = Some f -> no_plain f) ->
  let d := version_and_commit git arg desc date t in d_repo d = t /\ d_out d = [] /\ d_end d = Exit1 /\ (length (d_cmds d) <= 2)%nat.
Proof. exact L_C93_no_version. Qed.
Print Assumptions C93_no_version.

(** The notes of a version just released are its section. *)
Theorem C93_notes :
  forall y w date ts log log' old,
  plain y w -> one_line date -> log = Some old -> logged y date ts log log' ->
  paragraphs ts <> [] -> headless (paragraphs ts) -> tidy (paragraphs ts) -> no_mention y old -> notes y log' = paragraphs ts.
Proof. exact L_C93_notes. Qed.
Print Assumptions C93_notes.

Theorem C93_nonvacuous :
  exists pre post fs rest v w, asks (js "minor") v w /\ version_at pre (js "0.1.9") post /\ plain (js "0.1.9") v /\ exact v /\
  ex_repo = Repo (Some (pre ++ js "0.1.9" ++ post)) (Some ex_log) (Some ex_frags) /\ NoDup (map fst ex_frags) /\
  (forall n o, In (n, o) ex_frags -> fragment_name n -> exists c x, o = Some c /\ worded c x) /\ gathered ex_frags fs rest ex_ts /\
  plain (js "0.2.0") w /\ no_mention (js "0.2.0") ex_log /\ headless (paragraphs ex_ts) /\ tidy (paragraphs ex_ts) /\
  let d := ex_run ex_git (js "minor") ex_repo in
  rev (d_cmds d) = plan (js "v0.2.0") (js "chore: release v0.2.0") (js "Release v0.2.0") /\
  cargo (d_repo d) = Some (ex_manifest "0.2.0" "1.0.1") /\
  chlog (d_repo d) = Some (js "# Changelog

All notable changes to this project will be documented in this file.

<!-- changelog-insert-here -->


## [0.2.0] - 2026-11-17

### Added
- costs $5

### Fixed
- y

## [0.1.0-pre+beta.15] - Initial Release

### Added
- Initial implementation of doublets library
") /\ notes (js "0.2.0") (chlog (d_repo d)) = paragraphs ex_ts.
Proof. exact L_C93_nonvacuous. Qed.
Print Assumptions C93_nonvacuous.

(** Fragments are collected once (changelog.d/README.md: processed fragment files are removed). They are not removed:
    the next release has them again. *)
Theorem C93_once_refuted :
  let d := ex_run ex_git (js "minor") ex_repo in let d' := ex_run ex_git (js "patch") (d_repo d) in
  In (js "version_committed", js "true") (d_out d) /\ In (js "version_committed", js "true") (d_out d') /\
  entries (d_repo d) = entries ex_repo /\ entries (d_repo d') = entries ex_repo /\
  notes (js "0.2.0") (chlog (d_repo d)) = paragraphs ex_ts /\ notes (js "0.2.1") (chlog (d_repo d')) = paragraphs ex_ts /\ paragraphs ex_ts <> [].
Proof. exact L_C93_once_refuted. Qed.
Print Assumptions C93_once_refuted.

(** The notes of a release tell its changes. Not where collect-changelog.mjs was run first, as in the job
    manual-release (.github/workflows/ci.yml:369-398): the changes are those of the version before. *)
Theorem C93_manual_refuted :
  let t := fst (collect (js "2026-11-17") ex_repo) in let d := ex_run ex_git (js "minor") t in
  In (js "version_committed", js "true") (d_out d) /\ In (js "new_version", js "0.2.0") (d_out d) /\
  notes (js "0.2.0") (chlog (d_repo d)) = js "Release v0.2.0" /\ notes (js "0.1.9") (chlog (d_repo d)) = paragraphs ex_ts /\ paragraphs ex_ts <> [].
Proof. exact L_C93_manual_refuted. Qed.
Print Assumptions C93_manual_refuted.

(** A release that fails leaves the files as they were. They stay changed, and the next attempt skips a version. *)
Theorem C93_failed_refuted :
  let d := ex_run ex_offline (js "patch") ex_repo in
  d_end d = Exit1 /\ cargo (d_repo d) = Some (ex_manifest "0.1.10" "1.0.1") /\
  cargo (d_repo (ex_run ex_git (js "patch") (d_repo d))) = Some (ex_manifest "0.1.11" "1.0.1").
Proof. exact L_C93_failed_refuted. Qed.
Print Assumptions C93_failed_refuted.

(** a case with a fragment that cannot be read *)
Theorem C93_unreadable_nonvacuous :
  exists n, fragment_name n /\
  let l := ex_frags ++ [(n, None)] in let d := ex_run ex_git (js "patch") (Repo (cargo ex_repo) (chlog ex_repo) (Some l)) in
  In (n, None) l /\ map fst (rev (d_cmds d)) = [Config_name; Config_mail; Rev_parse (js "v0.1.10")] /\
  d_repo d = Repo (Some (ex_manifest "0.1.10" "1.0.1")) (chlog ex_repo) (Some l) /\ d_end d = Exit1.
Proof. exact L_C93_unreadable_nonvacuous. Qed.
Print Assumptions C93_unreadable_nonvacuous.

(** In the repository, where the file has no version, no release is made. *)
Theorem C93_workspace :
  forall git arg desc date log es,
  let t := Repo (Some ex_workspace) log es in let d := version_and_commit git arg desc date t in
  d_repo d = t /\ d_out d = [] /\ d_end d = Exit1 /\ (length (d_cmds d) <= 2)%nat.
Proof. exact L_C93_workspace. Qed.
Print Assumptions C93_workspace.

(** ** C94 *)
Theorem C94_sizes :
  forall cwd ns,
  check_sizes cwd (Some ns) = Exit0 <-> forall p n, reached cwd ns p n -> fine n.
Proof. exact L_C94_sizes. Qed.
Print Assumptions C94_sizes.

Theorem C94_ends :
  forall cwd ns,
  check_sizes cwd ns = Exit0 \/ check_sizes cwd ns = Exit1.
Proof. exact L_C94_ends. Qed.
Print Assumptions C94_ends.

(** a directory whose own path is left out: nothing is checked *)
Theorem C94_outside :
  forall cwd ns,
  banned cwd -> check_sizes cwd (Some ns) = Exit0.
Proof. exact L_C94_outside. Qed.
Print Assumptions C94_outside.

Theorem C94_nonvacuous :
  check_sizes (js "/w") (Some (ex_tree "a.rs" 999)) = Exit0 /\ check_sizes (js "/w") (Some (ex_tree "a.rs" 2000)) = Exit1 /\
  reached (js "/w") (ex_tree "a.rs" 2000) (js "/w/doublets/src/a.rs") (File (js "a.rs") (Some (ex_lines 2000))) /\
  ~ fine (File (js "a.rs") (Some (ex_lines 2000))).
Proof. exact L_C94_nonvacuous. Qed.
Print Assumptions C94_nonvacuous.

(** Files of 1000 lines pass. Not if the last line is ended, as it is in every file rustfmt writes. *)
Theorem C94_thousand_refuted :
  feeds (ex_lines 1000) = 1000%nat /\ ex_lines 1000 = ex_lines 999 ++ js "x
" /\ check_sizes (js "/w") (Some (ex_tree "a.rs" 1000)) = Exit1.
Proof. exact L_C94_thousand_refuted. Qed.
Print Assumptions C94_thousand_refuted.

(** Every Rust file outside of the build and git directories is checked. Not those with target in their names, such as
    doublets/src/mem/unit/generic/targets_recursionless_size_balanced_tree.rs. *)
Theorem C94_named_refuted :
  check_sizes (js "/w") (Some (ex_tree "targets_recursionless_size_balanced_tree.rs" 2000)) = Exit0.
Proof. exact L_C94_named_refuted. Qed.
Print Assumptions C94_named_refuted.
