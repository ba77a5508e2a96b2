(** Runs of the workflow that are cancelled (C99). *)
From Coq Require Import Ascii String Arith NArith List Bool Lia Permutation Sorted.
From Verif Require Import CancelledClaims JsText Release ReleaseVersion ReleaseNotes ReleaseLog ReleaseRun Workflow ReleaseJobs Cancelled.
Import ListNotations.
Open Scope N_scope.

(** In whatever state a run is ended: it has done the first of its commands; the branch is as before, or as the whole run leaves it,
    with the next version; and a tag on the server is the one of the version that the branch then has. *)
Theorem C99_cut :
  forall n j s pre x post v,
  branch_at s pre x post v -> exact v ->
  let r := run_job j s in let run := rev (effects n r) in let s' := cut_site n s r in
  (exists rest, rev (r_cmds r) = run ++ rest) /\ (length run <= n)%nat /\ crate s' = crate s /\
  (s' = s /\ ~ In (Push, Returns) run \/
   s' = r_site r /\ In (Push, Returns) run /\ exists arg w y, asks arg v w /\ branch_at s' pre y post w) /\
  forall tag, sent tag run -> exists arg w y, asks arg v w /\ branch_at s' pre y post w /\ tag = js "v" ++ y.
Proof. exact L_C99_cut. Qed.
Print Assumptions C99_cut.

(** Whatever happens, runs that are cut or not and pushes of others: the version of the manifest never goes back; a release is
    of a version that doublets/Cargo.toml had or of a later version than the manifest had at first; and so are the tags. *)
Theorem C99_versions :
  forall l s pre x post v,
  branch_at s pre x post v -> room_for v (length l) ->
  let p := happened l s in
  (exists y w, branch_at (p_site p) pre y post w /\ (w = v /\ y = x \/ later v w)) /\
  (forall tag body, In (tag, body) (p_releases p) -> (exists c, a_crate_says (p_crates p) c /\ tag = js "v" ++ c) \/
     exists y w, plain y w /\ later v w /\ tag = js "v" ++ y) /\
  (forall run tag m a, In run (p_runs p) -> In (Tag tag m, a) run -> exists y w, plain y w /\ later v w /\ tag = js "v" ++ y).
Proof. exact L_C99_versions. Qed.
Print Assumptions C99_versions.

(** A run is cut after its push.  Its version is never released by a later run, unless doublets/Cargo.toml gives it, and never
    tagged by a later run. *)
Theorem C99_lost :
  forall n j s pre x post v l,
  branch_at s pre x post v -> room_for v (S (length l)) ->
  let r := run_job j s in In (Push, Returns) (effects n r) ->
  let p := happened l (cut_site n s r) in
  exists y w, later v w /\ branch_at (cut_site n s r) pre y post w /\
  (forall tag, sent tag (rev (effects n r)) -> tag = js "v" ++ y) /\
  (forall body, In (js "v" ++ y, body) (p_releases p) -> a_crate_says (p_crates p) y) /\
  (forall run m a, In run (p_runs p) -> ~ In (Tag (js "v" ++ y) m, a) run).
Proof. exact L_C99_lost. Qed.
Print Assumptions C99_lost.

(** The same of a run that is not cut, and made no release after its push: the build failed, or GitHub refused it. *)
Theorem C99_failed :
  forall j s pre x post v l,
  branch_at s pre x post v -> room_for v (S (length l)) ->
  let r := run_job j s in In (Push, Returns) (r_cmds r) ->
  let p := happened l (r_site r) in
  exists y w, later v w /\ branch_at (r_site r) pre y post w /\
  (forall body, In (js "v" ++ y, body) (p_releases p) -> a_crate_says (p_crates p) y) /\
  (forall run m a, In run (p_runs p) -> ~ In (Tag (js "v" ++ y) m, a) run).
Proof. exact L_C99_failed. Qed.
Print Assumptions C99_failed.

Theorem C99_nonvacuous :
  let s := Site ex_rest (Some ex_crate) in
  (exists pre post, branch_at s pre (js "0.1.9") post (0, 1, 9)) /\ exact (0, 1, 9) /\ room_for (0, 1, 9) (S (length ex_life)) /\
  (ex_cut_site 7 = s /\ length (ex_cut 7) = 7%nat /\ ~ In (Push, Returns) (ex_cut 7)) /\
  (In (Push, Returns) (ex_cut 8) /\ ~ In (Push_tags, Returns) (ex_cut 8) /\ cargo (files (ex_cut_site 8)) = Some (ex_manifest "1.0.0" "1.0.1")) /\
  (sent (js "v1.0.0") (ex_cut 9) /\ r_release (run_job ex_manual s) <> None) /\
  let p := happened ex_life s in
  map fst (p_releases p) = [js "v1.1.0"] /\ map (fun r => length r) (p_runs p) = [9; 3; 9]%nat /\ cargo (files (p_site p)) = Some (ex_manifest "1.1.0" "1.0.1").
Proof. exact L_C99_nonvacuous. Qed.
Print Assumptions C99_nonvacuous.

(** A version that is tagged on the server is released in the end, and a version on the branch is tagged.  Not if the run was
    cancelled before its release, or before it sent the tags: no later run makes up for it. *)
Theorem C99_refuted :
  let s := Site ex_rest (Some ex_crate) in let r := run_job ex_manual s in
  (sent (js "v1.0.0") (rev (effects 9 r)) /\
   forall l, room_for (1, 0, 0) (length l) -> let p := happened l (cut_site 9 s r) in
   ~ a_crate_says (p_crates p) (js "1.0.0") -> forall body, ~ In (js "v1.0.0", body) (p_releases p)) /\
  (cargo (files (cut_site 8 s r)) = Some (ex_manifest "1.0.0" "1.0.1") /\ ~ In (Push_tags, Returns) (effects 8 r) /\
   forall l, room_for (1, 0, 0) (length l) -> forall run m a, In run (p_runs (happened l (cut_site 8 s r))) -> ~ In (Tag (js "v1.0.0") m, a) run).
Proof. exact L_C99_refuted. Qed.
Print Assumptions C99_refuted.
