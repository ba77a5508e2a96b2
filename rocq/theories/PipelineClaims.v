(** Proofs of the claims about the workflow as a whole (C97). *)
From Coq Require Import Ascii String Arith NArith List Bool Lia Permutation Sorted.
From Verif Require Import JsText Release ReleaseVersion ReleaseNotes ReleaseLog ReleaseRun Workflow ReleaseJobs Pipeline.
Import ListNotations.
Open Scope N_scope.

(** * What the jobs check *)
Definition lint_good (c : checks) : Prop :=
  ready c Lint = true /\ formatted c = true /\ linted c = true /\ exists ns, tree c = Some ns /\ forall p n, reached (cwd c) ns p n -> fine n.
Definition tests_good (c : checks) : Prop :=
  ready c Test = true /\ forall o f, tested c o f = true /\ doc_tested c o f = true.
Definition build_good (c : checks) : Prop := ready c Build = true /\ built c = true.
Definition coverage_good (c : checks) : Prop := ready c Coverage = true /\ covered c = true.
(** what the run does is what the job does *)
Definition does (o : outcome) (r : result) : Prop := o_site o = r_site r /\ o_release o = r_release r /\ o_cmds o = r_cmds r.
(** the run leaves everything as it is *)
Definition idle (o : outcome) (s : site) : Prop := o_site o = s /\ o_release o = None /\ o_cmds o = [].
(** the files of the three crates *)
Definition source_file (f : str) : Prop := exists d r, In d [js "doublets/src/"; js "doublets-ffi/src/"; js "integration/src/"] /\ f = d ++ r.

Lemma verdict_ok b : is_success (verdict b) = b.
Proof. now destruct b. Qed.
Lemma lint_ok c e s : is_success (steps c e s Lint) = true <-> lint_good c.
Proof.
  unfold steps, lint_good. destruct (ready c Lint); cbn [negb]; [|split; [discriminate|intros [X _]; discriminate X]].
  rewrite verdict_ok, !andb_true_iff. split.
  - intros [[F L] Z]. repeat (split; auto). destruct (tree c) as [ns|]; [|discriminate Z]. exists ns. split; auto.
    apply L_C94_sizes. destruct (check_sizes (cwd c) (Some ns)); congruence.
  - intros (_ & F & L & ns & -> & Z). split; auto. apply L_C94_sizes in Z. now rewrite Z.
Qed.
Lemma test_ok c e s : is_success (steps c e s Test) = true <-> tests_good c.
Proof.
  unfold steps, tests_good. destruct (ready c Test); cbn [negb]; [|split; [discriminate|intros [X _]; discriminate X]].
  rewrite verdict_ok, forallb_forall. split.
  - intros A. split; auto. intros o f. apply andb_true_iff. apply (A (o, f)). destruct o, f; cbn; tauto.
  - intros [_ A] [o f] _. apply andb_true_iff, A.
Qed.
Lemma build_ok c e s : is_success (steps c e s Build) = true <-> build_good c.
Proof.
  unfold steps, build_good. destruct (ready c Build); cbn [negb]; [|split; [discriminate|intros [X _]; discriminate X]].
  rewrite verdict_ok. tauto.
Qed.
Lemma coverage_ok c e s : is_success (steps c e s Coverage) = true <-> coverage_good c.
Proof.
  unfold steps, coverage_good. destruct (ready c Coverage); cbn [negb]; [|split; [discriminate|intros [X _]; discriminate X]].
  rewrite verdict_ok. tauto.
Qed.

(** The end of each job from those it needs. *)
Section S.
  Variables (c : checks) (e : event) (s : site).
  Notation l := (statuses c e s order []).
  Lemma st_lint : status_of l Lint = steps c e s Lint. Proof. reflexivity. Qed.
  Lemma st_test : status_of l Test = steps c e s Test. Proof. reflexivity. Qed.
  Lemma st_coverage : status_of l Coverage = steps c e s Coverage. Proof. reflexivity. Qed.
  Lemma st_miri : status_of l Miri = Skipped. Proof. reflexivity. Qed.
  Lemma st_build : status_of l Build = if is_success (steps c e s Lint) && (is_success (steps c e s Test) && true) && true then steps c e s Build else Skipped.
  Proof. reflexivity. Qed.
  Lemma build_succeeds : is_success (status_of l Build) = true <-> lint_good c /\ tests_good c /\ build_good c.
  Proof.
    rewrite st_build, !andb_true_r. destruct (is_success (steps c e s Lint) && is_success (steps c e s Test)) eqn:E.
    - apply andb_true_iff in E as [E1 E2]. apply lint_ok in E1. apply test_ok in E2. rewrite build_ok. tauto.
    - split; [discriminate|]. intros (A & B & _). apply (lint_ok c e s) in A. apply (test_ok c e s) in B. rewrite A, B in E. discriminate E.
  Qed.
  Lemma needed : is_success (status_of l Lint) && (is_success (status_of l Test) && (is_success (status_of l Build) && true)) = true <->
    lint_good c /\ tests_good c /\ build_good c.
  Proof.
    rewrite !andb_true_iff, build_succeeds, st_lint, st_test, lint_ok, test_ok. tauto.
  Qed.
  Lemma auto_runs : runs e l Auto_release = true <-> (lint_good c /\ tests_good c /\ build_good c) /\ e = Pushed (js "main").
  Proof.
    unfold runs. cbn [needs forallb]. rewrite andb_true_iff, needed. cbn [wanted]. split.
    - intros [A B]. split; auto. destruct e as [b|b|b bt d]; try discriminate B. apply same_spec in B. now subst.
    - intros [A ->]. split; auto.
  Qed.
  Lemma manual_runs : runs e l Manual_release = true <-> (lint_good c /\ tests_good c /\ build_good c) /\ exists b bump desc, e = Dispatched b bump desc.
  Proof.
    unfold runs. cbn [needs forallb]. rewrite andb_true_iff, needed. cbn [wanted]. split.
    - intros [A B]. split; auto. destruct e as [b|b|b bt d]; try discriminate B. eauto.
    - intros [A (b & bt & d & ->)]. split; auto.
  Qed.
End S.

(** * C97: the workflow *)

(** Nothing is released, tagged, committed or pushed unless the lint, all tests and the build ended well, on a
    push to main or a dispatch. *)
Lemma L_C97_gate c e s : let o := pipeline c e s in ~ idle o s ->
  lint_good c /\ tests_good c /\ build_good c /\
  ((e = Pushed (js "main") /\ ready c Auto_release = true /\ does o (auto (the_world c) s) /\ o_status o Manual_release = Skipped) \/
   (exists b bump desc, e = Dispatched b bump desc /\ ready c Manual_release = true /\ does o (manual (the_world c) bump desc s) /\
      o_status o Auto_release = Skipped)).
Proof.
  cbv zeta. unfold pipeline. destruct (triggers e); cbn [negb]; [|intros X; elim X; repeat split; reflexivity].
  set (l := statuses c e s order []).
  destruct (runs e l Auto_release && ready c Auto_release) eqn:E1; [|destruct (runs e l Manual_release && ready c Manual_release) eqn:E2].
  - intros _. apply andb_true_iff in E1 as [E1 R]. apply auto_runs in E1 as [(A & B & C) ->]. repeat (split; auto). left.
    repeat (split; auto). cbn [o_status]. unfold l. unfold order, statuses. cbn [status_of List.find name_eqb fst].
    unfold runs. cbn [wanted]. rewrite andb_false_r. reflexivity.
  - intros _. apply andb_true_iff in E2 as [E2 R]. apply manual_runs in E2 as [(A & B & C) (b & bt & d & ->)]. repeat (split; auto). right.
    exists b, bt, d. repeat (split; auto). cbn [o_status]. unfold l. unfold order, statuses. cbn [status_of List.find name_eqb fst].
    unfold runs. cbn [wanted]. rewrite andb_false_r. reflexivity.
  - intros X. elim X. repeat split; reflexivity.
Qed.

(** If they all ended well, the job of the event is run, and the run does what the job does. *)
Lemma L_C97_runs c e s : lint_good c -> tests_good c -> build_good c -> let o := pipeline c e s in
  (e = Pushed (js "main") -> ready c Auto_release = true ->
     does o (auto (the_world c) s) /\ o_status o Auto_release = of_end (r_end (auto (the_world c) s))) /\
  (forall b bump desc, e = Dispatched b bump desc -> ready c Manual_release = true ->
     does o (manual (the_world c) bump desc s) /\ o_status o Manual_release = of_end (r_end (manual (the_world c) bump desc s))).
Proof.
  intros A B C. cbv zeta. unfold pipeline. split.
  - intros -> R. cbn [triggers]. rewrite same_refl. cbn [negb].
    assert (E : runs (Pushed (js "main")) (statuses c (Pushed (js "main")) s order []) Auto_release = true) by (apply auto_runs; auto).
    rewrite E, R. cbn [andb orb]. split; [repeat split|]. cbn [o_status].
    change (status_of (statuses c (Pushed (js "main")) s order []) Auto_release) with
      (if runs (Pushed (js "main")) (statuses c (Pushed (js "main")) s order []) Auto_release then steps c (Pushed (js "main")) s Auto_release else Skipped).
    rewrite E. unfold steps. rewrite R. reflexivity.
  - intros b bt d -> R. cbn [triggers negb].
    assert (E : runs (Dispatched b bt d) (statuses c (Dispatched b bt d) s order []) Manual_release = true) by (apply manual_runs; split; eauto).
    rewrite E, R. cbn [andb orb]. rewrite orb_true_r. split; [repeat split|]. cbn [o_status].
    change (status_of (statuses c (Dispatched b bt d) s order []) Manual_release) with
      (if runs (Dispatched b bt d) (statuses c (Dispatched b bt d) s order []) Manual_release then steps c (Dispatched b bt d) s Manual_release else Skipped).
    rewrite E. unfold steps. rewrite R. reflexivity.
Qed.

(** Pull requests, and pushes to other branches, change nothing; the latter run no job. *)
Lemma L_C97_others c e s : let o := pipeline c e s in
  ((exists b, e = Pull b) -> idle o s) /\
  (forall b, b <> js "main" -> e = Pushed b \/ e = Pull b -> idle o s /\ o_warns o = false /\ forall j, o_status o j = Skipped) /\
  o_status o Miri = Skipped.
Proof.
  cbv zeta. split; [|split].
  - intros [b ->]. unfold pipeline. destruct (triggers (Pull b)); cbn [negb]; [|repeat split; reflexivity].
    assert (E1 : runs (Pull b) (statuses c (Pull b) s order []) Auto_release = false) by (unfold runs; apply andb_false_r).
    assert (E2 : runs (Pull b) (statuses c (Pull b) s order []) Manual_release = false) by (unfold runs; apply andb_false_r).
    rewrite E1, E2. repeat split; reflexivity.
  - intros b NB K. unfold pipeline. assert (E : triggers e = false) by (destruct K as [->| ->]; now apply same_neq).
    rewrite E. repeat split; reflexivity.
  - unfold pipeline. now destruct (triggers e).
Qed.

(** The job that stands for all required checks. *)
Lemma L_C97_required c e s : triggers e = true ->
  (o_status (pipeline c e s) Tests_pass = Success <->
   ready c Tests_pass = true /\ lint_good c /\ tests_good c /\ build_good c /\ coverage_good c).
Proof.
  intros T. unfold pipeline. rewrite T. cbn [negb o_status]. set (l := statuses c e s order []).
  change (status_of l Tests_pass) with (if runs e l Tests_pass then steps c e s Tests_pass else Skipped).
  assert (E : runs e l Tests_pass = true <-> (lint_good c /\ tests_good c /\ build_good c) /\ coverage_good c).
  { unfold runs. cbn [needs forallb wanted]. rewrite !andb_true_iff. unfold l. rewrite build_succeeds, st_lint, st_test, st_coverage, lint_ok, test_ok, coverage_ok. tauto. }
  destruct (runs e l Tests_pass).
  - destruct (proj1 E eq_refl) as [A B]. unfold steps. destruct (ready c Tests_pass); cbn [negb]; split; try discriminate; try tauto.
    intros [X _]. discriminate X.
  - split; [discriminate|]. intros (_ & A & B & C & D). assert (X : false = true) by (apply E; tauto). discriminate X.
Qed.

(** The check for fragments: it fails only if git fails, and warns if a source file is changed and there is no fragment. *)
Lemma source_ok f : source_line f = true <-> source_file f.
Proof.
  unfold source_line, source_file. rewrite !orb_true_iff, !starts_spec. split.
  - intros [[[r ->]|[r ->]]|[r ->]]; [exists (js "doublets/src/"), r|exists (js "doublets-ffi/src/"), r|exists (js "integration/src/"), r]; cbn [In]; auto.
  - intros (d & r & [<-|[<-|[<-|[]]]] & ->); [left; left|left; right|right]; exists r; reflexivity.
Qed.
Lemma L_C97_changelog c s ls : Forall (fun l => ~ In 10 l) ls -> ls <> [] -> ready c Changelog = true -> diff c = Some (join nl ls) ->
  let o := pipeline c (Pull (js "main")) s in
  o_status o Changelog = Success /\
  (o_warns o = true <-> (exists f, In f ls /\ source_file f) /\ ~ some_fragment (files s)).
Proof.
  intros F NE R D. cbv zeta. unfold pipeline. cbn [triggers]. rewrite same_refl. cbn [negb o_status o_warns].
  assert (E : runs (Pull (js "main")) (statuses c (Pull (js "main")) s order []) Changelog = true) by reflexivity.
  change (status_of (statuses c (Pull (js "main")) s order []) Changelog) with (steps c (Pull (js "main")) s Changelog).
  unfold steps. rewrite E, R, D. cbn [negb andb changelog_step fst snd verdict]. split; auto.
  rewrite lines_join by auto. rewrite andb_true_iff, existsb_exists, negb_true_iff. split.
  - intros [(f & I & X) N]. split; [exists f; split; auto; now apply source_ok|]. intros Y. apply any_spec in Y. congruence.
  - intros [(f & I & X) N]. split; [exists f; split; auto; now apply source_ok|]. destruct (any_fragment (files s)) eqn:Z; auto. elim N. now apply any_spec.
Qed.

Lemma L_C97_no_diff c s : diff c = None \/ ready c Changelog = false ->
  let o := pipeline c (Pull (js "main")) s in o_status o Changelog = Failure /\ o_warns o = false.
Proof.
  intros D. cbv zeta. unfold pipeline. cbn [triggers]. rewrite same_refl. cbn [negb o_status o_warns].
  assert (E : runs (Pull (js "main")) (statuses c (Pull (js "main")) s order []) Changelog = true) by reflexivity.
  change (status_of (statuses c (Pull (js "main")) s order []) Changelog) with (steps c (Pull (js "main")) s Changelog).
  unfold steps. rewrite E. destruct (ready c Changelog) eqn:R; cbn [negb andb]; [|auto]. destruct D as [->|D]; [|discriminate D]. split; reflexivity.
Qed.

(** How a release job ends is shown: success if all its steps passed, failure if one failed. *)
Definition shown (e : job_end) (x : status) : Prop :=
  (x = Success <-> e = Passed) /\ (x = Failure <-> e = Failed) /\ x <> Skipped.
Lemma of_end_shown e : shown e (of_end e).
Proof. destruct e; repeat split; discriminate || reflexivity. Qed.
Lemma L_C97_shown c s : lint_good c -> tests_good c -> build_good c ->
  (ready c Auto_release = true -> shown (r_end (auto (the_world c) s)) (o_status (pipeline c (Pushed (js "main")) s) Auto_release)) /\
  (forall b bump desc, ready c Manual_release = true ->
     shown (r_end (manual (the_world c) bump desc s)) (o_status (pipeline c (Dispatched b bump desc) s) Manual_release)).
Proof.
  intros A B C. split.
  - intros R. destruct (proj1 (L_C97_runs c (Pushed (js "main")) s A B C) eq_refl R) as [_ E]. rewrite E. apply of_end_shown.
  - intros b bump desc R. destruct (proj2 (L_C97_runs c (Dispatched b bump desc) s A B C) b bump desc eq_refl R) as [_ E]. rewrite E. apply of_end_shown.
Qed.

(** Once there is a fragment on the branch no job takes it away, and no pull request is warned any more. *)
Lemma L_C97_silent jobs s c : some_fragment (files s) -> o_warns (pipeline c (Pull (js "main")) (fst (run_jobs jobs s))) = false.
Proof.
  intros (l & n & o & E & I & F). set (s' := fst (run_jobs jobs s)).
  assert (SF : any_fragment (files s') = true).
  { apply any_spec. exists l, n, o. split; auto. unfold s'. destruct (L_C96_kept jobs s) as [_ X]. now rewrite X. }
  unfold pipeline. cbn [triggers]. rewrite same_refl. cbn [negb o_warns]. unfold changelog_step. rewrite SF.
  destruct (diff c); cbn [fst negb]; now rewrite ?andb_false_r.
Qed.

(** ** Cases *)
Definition ex_checks (covered : bool) (d : str) : checks :=
  Checks (fun _ => true) true true (js "/w") (Some (ex_tree "a.rs" 999)) (fun _ _ => true) (fun _ _ => true) true covered (Some d) ex_world.
Lemma ex_lint b d : lint_good (ex_checks b d).
Proof. repeat split. exists (ex_tree "a.rs" 999). split; auto. apply L_C94_sizes. vm_compute; reflexivity. Qed.
Lemma ex_tests b d : tests_good (ex_checks b d).
Proof. repeat split. Qed.
Lemma L_C97_nonvacuous :
  (forall b d, lint_good (ex_checks b d) /\ tests_good (ex_checks b d) /\ build_good (ex_checks b d)) /\
  coverage_good (ex_checks true []) /\
  (let o := pipeline (ex_checks true []) (Pushed (js "main")) ex_site in ~ idle o ex_site /\
     map (o_status o) order = [Success; Success; Success; Skipped; Success; Skipped; Success; Success; Skipped]) /\
  (let o := pipeline (ex_checks true []) (Dispatched (js "main") (js "major") []) ex_site in ~ idle o ex_site /\
     map (o_status o) order = [Success; Success; Success; Skipped; Success; Skipped; Success; Skipped; Success]) /\
  ~ some_fragment ex_rest /\
  (let o := pipeline (ex_checks true (join nl [js "README.md"; js "doublets/src/lib.rs"])) (Pull (js "main")) (Site ex_rest None) in
     o_warns o = true /\ map (o_status o) order = [Success; Success; Success; Skipped; Success; Success; Success; Skipped; Skipped]) /\
  some_fragment (files ex_site) /\
  (exists c, lint_good c /\ tests_good c /\ build_good c /\ ready c Auto_release = true /\ r_end (auto (the_world c) ex_site) = Failed /\
     o_status (pipeline c (Pushed (js "main")) ex_site) Auto_release = Failure).
Proof.
  split; [intros b d; split; [apply ex_lint|split; [apply ex_tests|split; reflexivity]]|]. split; [split; reflexivity|].
  split; [split; [intros (_ & X & _); vm_compute in X; discriminate X|vm_compute; reflexivity]|].
  split; [split; [intros (_ & X & _); vm_compute in X; discriminate X|vm_compute; reflexivity]|].
  split; [intros X; apply any_spec in X; vm_compute in X; discriminate X|].
  split; [split; vm_compute; reflexivity|]. split; [apply any_spec; vm_compute; reflexivity|].
  exists (Checks (fun _ => true) true true (js "/w") (Some (ex_tree "a.rs" 999)) (fun _ _ => true) (fun _ _ => true) true true (Some [])
    (World (git ex_world) (there ex_world) (fun _ => false) (github ex_world) (today ex_world))).
  split. { repeat split. exists (ex_tree "a.rs" 999). split; auto. apply L_C94_sizes. vm_compute; reflexivity. }
  split; [repeat split|]. split; [split; reflexivity|]. split; [reflexivity|]. split; vm_compute; reflexivity.
Qed.

(** All checks must pass before a release.  The coverage need not: the job for all checks is skipped, and the release is made. *)
Lemma L_C97_coverage_refuted : exists c,
  let o := pipeline c (Pushed (js "main")) ex_site in
  o_status o Coverage = Failure /\ o_status o Tests_pass = Skipped /\ o_status o Auto_release = Success /\
  In (Push, Returns) (o_cmds o) /\ o_release o <> None.
Proof.
  exists (ex_checks false []). cbv zeta. split; [vm_compute; reflexivity|]. split; [vm_compute; reflexivity|]. split; [vm_compute; reflexivity|].
  split; [|vm_compute; discriminate].
  assert (X : existsb is_push (o_cmds (pipeline (ex_checks false []) (Pushed (js "main")) ex_site)) = true) by (vm_compute; reflexivity).
  apply existsb_exists in X as (p & I & X). destruct p as [[] []]; try discriminate X. exact I.
Qed.

(** Releases are made from main.  A dispatch makes one from any branch. *)
Lemma L_C97_branch_refuted : exists c b, b <> js "main" /\
  let o := pipeline c (Dispatched b (js "major") []) ex_site in o_status o Manual_release = Success /\ o_release o <> None.
Proof. exists (ex_checks true []), (js "wip"). split; [discriminate|]. split; vm_compute; [reflexivity|discriminate]. Qed.

(** A pull request that changes the sources without a fragment of its own is warned.  Not if there is an older
    fragment, and not if the sources are those of the crates with the macros. *)
Lemma L_C97_warning_refuted :
  (exists c, diff c = Some (js "doublets/src/lib.rs") /\ o_warns (pipeline c (Pull (js "main")) ex_site) = false) /\
  (exists c, diff c = Some (js "doublets-ffi/ffi-attributes/src/lib.rs") /\ ~ some_fragment ex_rest /\
     o_warns (pipeline c (Pull (js "main")) (Site ex_rest None)) = false).
Proof.
  split.
  - exists (ex_checks true (js "doublets/src/lib.rs")). split; [reflexivity|]. vm_compute; reflexivity.
  - exists (ex_checks true (js "doublets-ffi/ffi-attributes/src/lib.rs")). split; [reflexivity|].
    split; [intros X; apply any_spec in X; vm_compute in X; discriminate X|]. vm_compute; reflexivity.
Qed.
