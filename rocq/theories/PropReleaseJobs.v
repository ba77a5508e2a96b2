(** The release jobs of the workflow (C95, C96). *)
From Coq Require Import Ascii String Arith NArith List Bool Lia Permutation Sorted.
From Verif Require Import ReleaseJobs JsText Release ReleaseVersion ReleaseNotes ReleaseLog ReleaseRun Workflow.
Import ListNotations.
Open Scope N_scope.

(** A release it makes is of the version that doublets/Cargo.toml gives, if that is not tagged or
    there are fragments for which the script came to its end. *)
Theorem C95_release :
  forall w s tag body,
  r_release (auto w s) = Some (tag, body) ->
  exists f x, crate s = Some f /\ crate_says f x /\ tag = js "v" ++ x /\ r_end (auto w s) = Passed /\ github w tag body = Made /\
  ((~ some_fragment (files s) /\ there w tag = false /\ builds w (files s) = true /\ body = notes x (chlog (files s)) /\ r_site (auto w s) = s /\ r_cmds (auto w s) = []) \/
   (some_fragment (files s) /\ exists b, let d := version_and_commit (git w) b [] (today w) (files s) in
    r_cmds (auto w s) = d_cmds d /\ (exists y, script_done (js "v" ++ y) (rev (d_cmds d))) /\ builds w (d_repo d) = true /\ body = notes x (chlog (d_repo d)))).
Proof. exact L_C95_release. Qed.
Print Assumptions C95_release.

(** without fragments *)
Theorem C95_quiet :
  forall w s f x,
  ~ some_fragment (files s) -> crate s = Some f -> crate_says f x ->
  (there w (js "v" ++ x) = true -> auto w s = Result s None [] Passed) /\
  (there w (js "v" ++ x) = false -> harmless x -> builds w (files s) = true -> github w (js "v" ++ x) (notes x (chlog (files s))) = Made ->
   auto w s = Result s (Some (js "v" ++ x, notes x (chlog (files s)))) [] Passed).
Proof. exact L_C95_quiet. Qed.
Print Assumptions C95_quiet.

(** with fragments: what is on the branch afterwards, and that the release is not of the version that was tagged, unless
    that is the version doublets/Cargo.toml has *)
Theorem C95_commit :
  forall w pre x post v log l f c y0,
  version_at pre x post -> plain x v -> exact v -> NoDup (map fst l) ->
  (forall n o, In (n, o) l -> fragment_name n -> (exists c z, o = Some c /\ worded c z) /\ exists c d, o = Some c /\ fragment c d) ->
  some_fragment (Repo (Some (pre ++ x ++ post)) log (Some l)) -> crate_says f c ->
  let s := Site (Repo (Some (pre ++ x ++ post)) log (Some l)) (Some f) in
  let r := auto w s in
  In (Tag (js "v" ++ y0) (js "Release v" ++ y0), Returns) (r_cmds r) -> In (Push, Returns) (r_cmds r) ->
  exists v' ts log' b k, rank b k /\ (forall n z k', In (n, Some z) l -> fragment_name n -> counts z k' -> k' <= k) /\
  (exists n z, In (n, Some z) l /\ fragment_name n /\ counts z k) /\ asks b v v' /\
  plain y0 v' /\ later v v' /\ version_at pre y0 post /\ (exists fs rest, gathered l fs rest ts) /\ logged y0 (today w) ts log log' /\
  r_site r = Site (Repo (Some (pre ++ y0 ++ post)) log' (Some l)) (Some f) /\
  (forall tag body, r_release r = Some (tag, body) -> tag = js "v" ++ c /\ body = notes c log').
Proof. exact L_C95_commit. Qed.
Print Assumptions C95_commit.

(** The job never changes doublets/Cargo.toml, nor the entries of changelog.d, and the branch only by a push. *)
Theorem C95_kept :
  forall w s,
  let r := auto w s in
  crate (r_site r) = crate s /\ entries (files (r_site r)) = entries (files s) /\ (~ In (Push, Returns) (r_cmds r) -> r_site r = s).
Proof. exact L_C95_kept. Qed.
Print Assumptions C95_kept.

(** So all releases that runs of the job ever make have one tag. *)
Theorem C95_one_tag :
  forall ws s f x p, crate s = Some f -> crate_says f x -> In p (snd (run_jobs (map Auto ws) s)) -> fst p = js "v" ++ x.
Proof. exact L_C95_one_tag. Qed.
Print Assumptions C95_one_tag.

(** ** C96: the job manual-release, and jobs one after another *)
Theorem C96_release :
  forall w arg desc s tag body,
  r_release (manual w arg desc s) = Some (tag, body) ->
  exists y t1, tag = js "v" ++ y /\ r_end (manual w arg desc s) = Passed /\ github w tag body = Made /\
  (some_fragment (files s) -> collect (today w) (files s) = (t1, Exit0)) /\ (~ some_fragment (files s) -> t1 = files s) /\
  let d := version_and_commit (git w) arg desc (today w) t1 in
  r_cmds (manual w arg desc s) = d_cmds d /\ builds w (d_repo d) = true /\ body = notes y (chlog (d_repo d)) /\
  (In (Rev_parse tag, Returns) (d_cmds d) \/ exists cm tm, rev (d_cmds d) = plan tag cm tm).
Proof. exact L_C96_release. Qed.
Print Assumptions C96_release.

(** No job, and no sequence of jobs, changes doublets/Cargo.toml or removes a fragment from the branch. *)
Theorem C96_kept :
  forall jobs s, let s' := fst (run_jobs jobs s) in crate s' = crate s /\ entries (files s') = entries (files s).
Proof. exact L_C96_kept. Qed.
Print Assumptions C96_kept.

(** Without fragments. *)
Theorem C96_no_fragments :
  forall w arg desc pre x post v w' log l f,
  asks arg v w' -> version_at pre x post -> plain x v -> exact v -> NoDup (map fst l) ->
  harmless desc -> let t := Repo (Some (pre ++ x ++ post)) log (Some l) in ~ some_fragment t ->
  let r := manual w arg desc (Site t f) in
  exists y cm tm, plain y w' /\ later v w' /\ version_at pre y post /\
  message_of (js "chore: release v") y desc cm /\ message_of (js "Release v") y desc tm /\ followed (plan (js "v" ++ y) cm tm) (rev (r_cmds r)) /\
  (rev (r_cmds r) = plan (js "v" ++ y) cm tm -> r_site r = Site (Repo (Some (pre ++ y ++ post)) log (Some l)) f /\
    (builds w (Repo (Some (pre ++ y ++ post)) log (Some l)) = true -> github w (js "v" ++ y) (notes y log) = Made -> r_release r = Some (js "v" ++ y, notes y log))).
Proof. exact L_C96_no_fragments. Qed.
Print Assumptions C96_no_fragments.

Theorem C96_versions :
  forall jobs s pre x post v f c, version_at pre x post -> plain x v -> room_for v (length jobs) ->
  cargo (files s) = Some (pre ++ x ++ post) -> crate s = Some f -> crate_says f c ->
  (exists y w, version_at pre y post /\ plain y w /\ cargo (files (fst (run_jobs jobs s))) = Some (pre ++ y ++ post) /\ (w = v /\ y = x \/ later v w)) /\
  forall tag body, In (tag, body) (snd (run_jobs jobs s)) -> tag = js "v" ++ c \/ exists y w, plain y w /\ later v w /\ tag = js "v" ++ y.
Proof. exact L_C96_versions. Qed.
Print Assumptions C96_versions.

Theorem C96_stuck :
  forall jobs s, (forall m, cargo (files s) = Some m -> no_plain m) -> some_fragment (files s) ->
  run_jobs jobs s = (s, []) /\ forall j, r_end (run_job j s) <> Passed.
Proof. exact L_C96_stuck. Qed.
Print Assumptions C96_stuck.

Theorem C95_nonvacuous :
  exists pre post v, version_at pre (js "0.1.9") post /\ plain (js "0.1.9") v /\ exact v /\ NoDup (map fst ex_frags) /\
  (forall n o, In (n, o) ex_frags -> fragment_name n -> (exists c z, o = Some c /\ worded c z) /\ exists c d, o = Some c /\ fragment c d) /\
  ex_repo = Repo (Some (pre ++ js "0.1.9" ++ post)) (Some ex_log) (Some ex_frags) /\ some_fragment ex_repo /\ crate_says ex_crate (js "0.1.0-pre+beta.15") /\
  let r := auto ex_world ex_site in
  rev (r_cmds r) = plan (js "v0.2.0") (js "chore: release v0.2.0") (js "Release v0.2.0") /\ r_end r = Passed /\
  cargo (files (r_site r)) = Some (ex_manifest "0.2.0" "1.0.1") /\ notes (js "0.2.0") (chlog (files (r_site r))) = paragraphs ex_ts /\
  r_release r = Some (js "v0.1.0-pre+beta.15", js "### Added
- Initial implementation of doublets library").
Proof. exact L_C95_nonvacuous. Qed.
Print Assumptions C95_nonvacuous.

Theorem C95_quiet_nonvacuous :
  ~ some_fragment ex_rest /\ crate_says ex_crate (js "0.1.0-pre+beta.15") /\ harmless (js "0.1.0-pre+beta.15") /\
  auto ex_world (Site ex_rest (Some ex_crate)) = Result (Site ex_rest (Some ex_crate)) (Some (js "v0.1.0-pre+beta.15", js "### Added
- Initial implementation of doublets library")) [] Passed.
Proof. exact L_C95_quiet_nonvacuous. Qed.
Print Assumptions C95_quiet_nonvacuous.

(** A run that commits, tags and pushes a version releases that version, with the changes it collected. It releases
    another; and where GitHub has that one already, all later versions are tagged and none of them is released. *)
Theorem C95_version_refuted :
  let r := auto ex_world ex_site in let r2 := auto ex_again (r_site r) in
  In (Tag (js "v0.2.0") (js "Release v0.2.0"), Returns) (r_cmds r) /\ In (Push, Returns) (r_cmds r) /\
  (exists body, r_release r = Some (js "v0.1.0-pre+beta.15", body) /\ body <> paragraphs ex_ts) /\
  In (Tag (js "v0.3.0") (js "Release v0.3.0"), Returns) (r_cmds r2) /\ In (Push, Returns) (r_cmds r2) /\ r_end r2 = Passed /\ r_release r2 = None /\
  map fst (snd (run_jobs [Auto ex_world; Auto ex_again; Auto ex_again] ex_site)) = [js "v0.1.0-pre+beta.15"].
Proof. exact L_C95_version_refuted. Qed.
Print Assumptions C95_version_refuted.

Theorem C96_nonvacuous :
  exists pre post v w, asks (js "major") v w /\ version_at pre (js "0.1.9") post /\ plain (js "0.1.9") v /\ exact v /\
  ex_rest = Repo (Some (pre ++ js "0.1.9" ++ post)) (Some ex_log) (entries ex_rest) /\ ~ some_fragment ex_rest /\ harmless (js "as asked") /\
  let r := manual ex_world (js "major") (js "as asked") (Site ex_rest (Some ex_crate)) in
  rev (r_cmds r) = plan (js "v1.0.0") (js "chore: release v1.0.0

as asked") (js "Release v1.0.0

as asked") /\ r_end r = Passed /\ cargo (files (r_site r)) = Some (ex_manifest "1.0.0" "1.0.1") /\ r_release r = Some (js "v1.0.0", js "Release v1.0.0").
Proof. exact L_C96_nonvacuous. Qed.
Print Assumptions C96_nonvacuous.

Theorem C96_versions_nonvacuous :
  exists pre post v, version_at pre (js "0.1.9") post /\ plain (js "0.1.9") v /\ room_for v (length ex_jobs) /\
  cargo (files ex_site) = Some (pre ++ js "0.1.9" ++ post) /\ crate ex_site = Some ex_crate /\ crate_says ex_crate (js "0.1.0-pre+beta.15") /\
  cargo (files (fst (run_jobs ex_jobs ex_site))) = Some (ex_manifest "1.0.0" "1.0.1") /\
  map fst (snd (run_jobs ex_jobs ex_site)) = [js "v0.2.0"; js "v0.1.0-pre+beta.15"; js "v1.0.0"].
Proof. exact L_C96_versions_nonvacuous. Qed.
Print Assumptions C96_versions_nonvacuous.

(** The notes of a release tell the changes collected for it. They do not: the changes are in the changelog under the
    version before. *)
Theorem C96_notes_refuted :
  let r := manual ex_world (js "minor") [] ex_site in
  r_release r = Some (js "v0.2.0", js "Release v0.2.0") /\ notes (js "0.1.9") (chlog (files (r_site r))) = paragraphs ex_ts /\ paragraphs ex_ts <> [].
Proof. exact L_C96_notes_refuted. Qed.
Print Assumptions C96_notes_refuted.

(** A change is told once. It is told again by each run, as its fragment stays on the branch. *)
Theorem C96_once_refuted :
  let s1 := r_site (manual ex_world (js "minor") [] ex_site) in let s2 := r_site (manual ex_world (js "minor") [] s1) in
  let s3 := r_site (auto ex_again s2) in
  entries (files s3) = Some ex_frags /\
  map (fun v => notes (js v) (chlog (files s3))) ["0.1.9"; "0.2.0"; "0.4.0"]%string = [paragraphs ex_ts; paragraphs ex_ts; paragraphs ex_ts] /\ paragraphs ex_ts <> [].
Proof. exact L_C96_once_refuted. Qed.
Print Assumptions C96_once_refuted.

(** As the repository is, with a manifest that has no version and a fragment in changelog.d, no run of a job passes or
    makes a release. *)
Theorem C96_repository :
  forall jobs log c body,
  let s := Site (Repo (Some ex_workspace) log (Some [(js "20251228_030839_ai_driven_pipeline.md", body); (js "README.md", Some (js "about"))])) c in
  run_jobs jobs s = (s, []) /\ forall j, r_end (run_job j s) <> Passed.
Proof. exact L_C96_repository. Qed.
Print Assumptions C96_repository.
