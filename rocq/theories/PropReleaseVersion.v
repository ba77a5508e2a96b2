(** The version in the manifest and its next one (C89). *)
From Coq Require Import Ascii String NArith List Bool Lia.
From Verif Require Import ReleaseVersion JsText Release.
Import ListNotations.
Open Scope N_scope.

(** ** C89 *)
Theorem C89_bump :
  forall arg pre x post v w log es,
  asks arg v w -> version_at pre x post -> plain x v -> exact v ->
  later v w /\ exists y, plain y w /\ version_at pre y post /\
  bump_version arg false (Repo (Some (pre ++ x ++ post)) log es) = (Repo (Some (pre ++ y ++ post)) log es, Exit0).
Proof. exact L_C89_bump. Qed.
Print Assumptions C89_bump.

Theorem C89_reads :
  forall pre x post v log es,
  version_at pre x post -> plain x v -> exact v ->
  current_version (Repo (Some (pre ++ x ++ post)) log es) = Got v /\ cargo_version (Repo (Some (pre ++ x ++ post)) log es) = Some x.
Proof. exact L_C89_reads. Qed.
Print Assumptions C89_reads.

Theorem C89_no_version :
  forall arg dry t,
  (forall f, cargo t = Some f -> no_plain f) -> bump_version arg dry t = (t, Exit1).
Proof. exact L_C89_no_version. Qed.
Print Assumptions C89_no_version.

Theorem C89_bad_argument :
  forall arg dry t,
  ~ In arg [js "major"; js "minor"; js "patch"] -> bump_version arg dry t = (t, Exit1).
Proof. exact L_C89_bad_argument. Qed.
Print Assumptions C89_bad_argument.

Theorem C89_touches :
  forall arg dry t,
  let '(t', e) := bump_version arg dry t in
  chlog t' = chlog t /\ entries t' = entries t /\ (dry = true \/ e <> Exit0 -> t' = t).
Proof. exact L_C89_touches. Qed.
Print Assumptions C89_touches.

Theorem C89_nonvacuous :
  exists pre x post v w, version_at pre x post /\ plain x v /\ exact v /\ asks (js "patch") v w /\
  bump_version (js "patch") false (Repo (Some (ex_manifest "0.1.9" "1.0.1")) None None) =
  (Repo (Some (ex_manifest "0.1.10" "1.0.1")) None None, Exit0) /\ pre ++ x ++ post = ex_manifest "0.1.9" "1.0.1" /\ later v w.
Proof. exact L_C89_nonvacuous. Qed.
Print Assumptions C89_nonvacuous.

(** The version read and the version replaced need not be the same one. *)
Theorem C89_other_line_refuted :
  exists pre x post, version_at pre x post /\
  bump_version (js "patch") false (Repo (Some (pre ++ x ++ post)) None None) =
  (Repo (Some (pre ++ js "1.0.2" ++ post)) None None, Exit0) /\ x = js "0.1.0-pre+beta.15" /\
  pre ++ x ++ post = ex_manifest "0.1.0-pre+beta.15" "1.0.1".
Proof. exact L_C89_other_line_refuted. Qed.
Print Assumptions C89_other_line_refuted.

Theorem C89_workspace :
  forall arg dry log es,
  bump_version arg dry (Repo (Some ex_workspace) log es) = (Repo (Some ex_workspace) log es, Exit1).
Proof. exact L_C89_workspace. Qed.
Print Assumptions C89_workspace.
