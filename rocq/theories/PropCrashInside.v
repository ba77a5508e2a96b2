(** Updates stopped inside a tree operation (C77). *)
From Coq Require Import NArith List Bool Lia Permutation.
From Verif Require Import CrashInside Base Trees Lists TreeInv Spec Iface UnitModel UnitInv UnitOps UnitLinks
  Doublets DoubletsOK Obs Hist Claims TreeImpl UnitHist Layout Accessors TreeProgs Crash CrashWrites CrashClaims.
Import ListNotations.
Open Scope N_scope.

(** The process stops inside a tree operation: every other link is as before, and link [i] is there
    with the fields it has at that moment, or it is lost, and then count counts it and each does not visit it. *)
Theorem C77_stopped_inside_partial :
  forall cf tops lops st d i os ot s t w q n st1 orc st2,
  let U := unit_links cf tops lops in let p := stored (before w) os ot s t in
  unit_env cf tops lops -> u_hist cf tops lops st d -> is_link U st i os ot -> separable U st i ->
  (forall j, linked U st j -> j < c_step cf) ->
  inside tops st i os ot s t w q n st1 -> u_open cf (u_persist st1 orc) = Val (Ok st2) ->
  frame U st st2 i /\ exists n, u_count cf st [] = Val n /\ u_count cf st2 [] = Val n /\
  (is_link U st2 i (fst p) (snd p) /\ u_each cf (fun m _ => (m + 1, Continue)) [] st2 0 = Val (n, Continue) \/
   no_link U st2 i /\ exists m, n = m + 1 /\ u_each cf (fun m _ => (m + 1, Continue)) [] st2 0 = Val (m, Continue)).
Proof. exact L_C77_stopped_inside_partial. Qed.
Print Assumptions C77_stopped_inside_partial.

(** Inside an operation on the tree of targets, it is lost exactly if it was before the operation. *)
Theorem C77_targets :
  forall cf tops lops st d i os ot s t w q n st1 orc st2,
  let U := unit_links cf tops lops in
  unit_env cf tops lops -> u_hist cf tops lops st d -> is_link U st i os ot -> separable U st i ->
  (forall j, linked U st j -> j < c_step cf) ->
  inside tops st i os ot s t w q n st1 -> u_open cf (u_persist st1 orc) = Val (Ok st2) ->
  (w = DetachTarget -> os <> 0 -> no_link U st2 i) /\ (w = DetachTarget -> os = 0 -> is_link U st2 i os ot) /\
  (w = AttachTarget -> is_link U st2 i s t).
Proof. exact L_C77_targets. Qed.
Print Assumptions C77_targets.

(** ** The points exist *)
Theorem C77_points_exist :
  forall cf tops lops st d i os ot s t w q n st1 orc,
  let U := unit_links cf tops lops in
  unit_env cf tops lops -> u_hist cf tops lops st d -> is_link U st i os ot -> separable U st i ->
  (forall j, linked U st j -> j < c_step cf) -> c_step cf - 1 <= c_tmax cf ->
  orc 0%nat (c_page cf) = true -> orc 1%nat (c_step cf) = true ->
  at_point tops st i os ot s t (before w) st1 -> ends w q st1 -> (on_sources w = true -> spares q st1 i) ->
  exists st2 st3, inside tops st i os ot s t w q n st2 /\ u_open cf (u_persist st2 orc) = Val (Ok st3).
Proof. exact L_C77_points_exist. Qed.
Print Assumptions C77_points_exist.

(** For the operations the models are run with, there is such an algorithm at every point of every update. *)
Theorem C77_realised :
  forall cf lops st d i os ot s t w st1,
  let U := unit_links cf ref_tree_ops lops in
  unit_env cf ref_tree_ops lops -> u_hist cf ref_tree_ops lops st d -> is_link U st i os ot -> separable U st i ->
  at_point ref_tree_ops st i os ot s t (before w) st1 -> end_of w os ot s t <> 0 ->
  exists q st2 m, ends w q st1 /\ (on_sources w = true -> spares q st1 i) /\
    (if on_sources w then on_memory us_acc us_root q (u_mem st1) else on_memory ut_acc ut_root q (u_mem st1)) = Val (tt, m) /\
    tree_op ref_tree_ops w i st1 = Val st2 /\ same_mem m (u_mem st2).
Proof. exact L_C77_realised. Qed.
Print Assumptions C77_realised.

(** The hypotheses are met, at every operation and after any number of accesses of its algorithm. *)
Theorem C77_nonvacuous :
  forall w n,
  exists st d q st1 st2, u_hist ex_cf ref_tree_ops ref_list_ops st d /\
  is_link ex_U st 2 1 2 /\ is_link ex_U st 3 2 1 /\ separable ex_U st 2 /\ (forall j, linked ex_U st j -> j < c_step ex_cf) /\
  inside ref_tree_ops st 2 1 2 2 2 w q n st1 /\ u_open ex_cf (u_persist st1 (fun _ _ => true)) = Val (Ok st2).
Proof. exact L_C77_nonvacuous. Qed.
Print Assumptions C77_nonvacuous.

(** That link [i] is there is too much: it is lost wherever the process stops inside the second operation. *)
Theorem C77_refuted :
  forall n,
  exists st d q st1 st2, u_hist ex_cf ref_tree_ops ref_list_ops st d /\ is_link ex_U st 2 1 2 /\ separable ex_U st 2 /\
  inside ref_tree_ops st 2 1 2 2 2 DetachTarget q n st1 /\ u_open ex_cf (u_persist st1 (fun _ _ => true)) = Val (Ok st2) /\ no_link ex_U st2 2.
Proof. exact L_C77_refuted. Qed.
Print Assumptions C77_refuted.

Theorem C77_spares_needed :
  exists st d q m st1 st2, u_hist ex_cf ref_tree_ops ref_list_ops st d /\ is_link ex_U st 2 1 2 /\ is_link ex_U st 3 2 1 /\
  separable ex_U st 2 /\ at_point ref_tree_ops st 2 1 2 2 2 (before DetachSource) st /\ ends DetachSource q st /\
  (exists m', on_memory us_acc us_root q (u_mem st) = Val (tt, m') /\ same_mem m' (u_mem st)) /\
  on_memory us_acc us_root (cut 1 q) (u_mem st) = Val (tt, m) /\ same_mem m (u_mem st1) /\
  u_open ex_cf (u_persist st1 (fun _ _ => true)) = Val (Ok st2) /\ no_link ex_U st2 3.
Proof. exact L_C77_spares_needed. Qed.
Print Assumptions C77_spares_needed.
