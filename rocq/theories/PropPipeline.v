(** The workflow as a whole (C97). *)
From Coq Require Import Ascii String Arith NArith List Bool Lia Permutation Sorted.
From Verif Require Import PipelineClaims JsText Release ReleaseVersion ReleaseNotes ReleaseLog ReleaseRun Workflow ReleaseJobs Pipeline.
Import ListNotations.
Open Scope N_scope.

(** Nothing is released, tagged, committed or pushed unless the lint, all tests and the build ended well, on a
    push to main or a dispatch. *)
Theorem C97_gate :
  forall c e s,
  let o := pipeline c e s in ~ idle o s ->
  lint_good c /\ tests_good c /\ build_good c /\
  ((e = Pushed (js "main") /\ ready c Auto_release = true /\ does o (auto (the_world c) s) /\ o_status o Manual_release = Skipped) \/
   (exists b bump desc, e = Dispatched b bump desc /\ ready c Manual_release = true /\ does o (manual (the_world c) bump desc s) /\
      o_status o Auto_release = Skipped)).
Proof. exact L_C97_gate. Qed.
Print Assumptions C97_gate.

(** If they all ended well, the job of the event is run, and the run does what the job does. *)
Theorem C97_runs :
  forall c e s,
  lint_good c -> tests_good c -> build_good c -> let o := pipeline c e s in
  (e = Pushed (js "main") -> ready c Auto_release = true ->
     does o (auto (the_world c) s) /\ o_status o Auto_release = of_end (r_end (auto (the_world c) s))) /\
  (forall b bump desc, e = Dispatched b bump desc -> ready c Manual_release = true ->
     does o (manual (the_world c) bump desc s) /\ o_status o Manual_release = of_end (r_end (manual (the_world c) bump desc s))).
Proof. exact L_C97_runs. Qed.
Print Assumptions C97_runs.

(** Pull requests, and pushes to other branches, change nothing; the latter run no job. *)
Theorem C97_others :
  forall c e s,
  let o := pipeline c e s in
  ((exists b, e = Pull b) -> idle o s) /\
  (forall b, b <> js "main" -> e = Pushed b \/ e = Pull b -> idle o s /\ o_warns o = false /\ forall j, o_status o j = Skipped) /\
  o_status o Miri = Skipped.
Proof. exact L_C97_others. Qed.
Print Assumptions C97_others.

(** The job that stands for all required checks. *)
Theorem C97_required :
  forall c e s,
  triggers e = true ->
  (o_status (pipeline c e s) Tests_pass = Success <->
   ready c Tests_pass = true /\ lint_good c /\ tests_good c /\ build_good c /\ coverage_good c).
Proof. exact L_C97_required. Qed.
Print Assumptions C97_required.

Theorem C97_changelog :
  forall c s ls,
  Forall (fun l => ~ In 10 l) ls -> ls <> [] -> ready c Changelog = true -> diff c = Some (join nl ls) ->
  let o := pipeline c (Pull (js "main")) s in
  o_status o Changelog = Success /\
  (o_warns o = true <-> (exists f, In f ls /\ source_file f) /\ ~ some_fragment (files s)).
Proof. exact L_C97_changelog. Qed.
Print Assumptions C97_changelog.

Theorem C97_no_diff :
  forall c s,
  diff c = None \/ ready c Changelog = false ->
  let o := pipeline c (Pull (js "main")) s in o_status o Changelog = Failure /\ o_warns o = false.
Proof. exact L_C97_no_diff. Qed.
Print Assumptions C97_no_diff.

Theorem C97_shown :
  forall c s,
  lint_good c -> tests_good c -> build_good c ->
  (ready c Auto_release = true -> shown (r_end (auto (the_world c) s)) (o_status (pipeline c (Pushed (js "main")) s) Auto_release)) /\
  (forall b bump desc, ready c Manual_release = true ->
     shown (r_end (manual (the_world c) bump desc s)) (o_status (pipeline c (Dispatched b bump desc) s) Manual_release)).
Proof. exact L_C97_shown. Qed.
Print Assumptions C97_shown.

(** Once there is a fragment on the branch no job takes it away, and no pull request is warned any more. *)
Theorem C97_silent :
  forall jobs s c,
  some_fragment (files s) -> o_warns (pipeline c (Pull (js "main")) (fst (run_jobs jobs s))) = false.
Proof. exact L_C97_silent. Qed.
Print Assumptions C97_silent.

Theorem C97_nonvacuous :
  (forall b d, lint_good (ex_checks b d) /\ tests_good (ex_checks b d) /\ build_good (ex_checks b d)) /\
  coverage_good (ex_checks true []) /\
  (let o := pipeline (ex_checks true []) (Pushed (js "main")) ex_site in ~ idle o ex_site /\
     map (o_status o) order = [Success; Success; Success; Skipped; Success; Skipped; Success; Success; Skipped]) /\
  (let o := pipeline (ex_checks true []) (Dispatched (js "main") (js "major") []) ex_site in ~ idle o ex_site /\
     map (o_status o) order = [Success; Success; Success; Skipped; Success; Skipped; Success; Skipped; Success]) /\
  ~ some_fragment ex_rest /\
  (let o := pipeline (ex_checks true (join nl [js "README.md"; js "doublets/src/lib.rs"])) (Pull (js "main")) (Site ex_rest None) in
     o_warns o = true /\ map (o_status o) order = [Success; Success; Success; Skipped; Success; Success; Success; Skipped; Skipped]) /\
  some_fragment (files ex_site) /\
  (exists c, lint_good c /\ tests_good c /\ build_good c /\ ready c Auto_release = true /\ r_end (auto (the_world c) ex_site) = Failed /\
     o_status (pipeline c (Pushed (js "main")) ex_site) Auto_release = Failure).
Proof. exact L_C97_nonvacuous. Qed.
Print Assumptions C97_nonvacuous.

(** All checks must pass before a release.  The coverage need not: the job for all checks is skipped, and the release is made. *)
Theorem C97_coverage_refuted :
  exists c,
  let o := pipeline c (Pushed (js "main")) ex_site in
  o_status o Coverage = Failure /\ o_status o Tests_pass = Skipped /\ o_status o Auto_release = Success /\
  In (Push, Returns) (o_cmds o) /\ o_release o <> None.
Proof. exact L_C97_coverage_refuted. Qed.
Print Assumptions C97_coverage_refuted.

(** Releases are made from main.  A dispatch makes one from any branch. *)
Theorem C97_branch_refuted :
  exists c b, b <> js "main" /\
  let o := pipeline c (Dispatched b (js "major") []) ex_site in o_status o Manual_release = Success /\ o_release o <> None.
Proof. exact L_C97_branch_refuted. Qed.
Print Assumptions C97_branch_refuted.

(** A pull request that changes the sources without a fragment of its own is warned.  Not if there is an older
    fragment, and not if the sources are those of the crates with the macros. *)
Theorem C97_warning_refuted :
  (exists c, diff c = Some (js "doublets/src/lib.rs") /\ o_warns (pipeline c (Pull (js "main")) ex_site) = false) /\
  (exists c, diff c = Some (js "doublets-ffi/ffi-attributes/src/lib.rs") /\ ~ some_fragment ex_rest /\
     o_warns (pipeline c (Pull (js "main")) (Site ex_rest None)) = false).
Proof. exact L_C97_warning_refuted. Qed.
Print Assumptions C97_warning_refuted.
