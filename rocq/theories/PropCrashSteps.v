(** Stops inside tree operations of both stores (C78). *)
From Coq Require Import NArith List Bool Lia.
From Verif Require Import CrashSteps Base Trees Lists TreeInv Spec Iface UnitModel UnitInv UnitOps UnitLinks LinkModel SplitModel Forest
  SplitInv SplitReads SplitOps SplitWrites SplitLinks Doublets DoubletsOK Obs Hist Claims TreeImpl UnitHist SplitHist
  Layout Accessors TreeProgs CrashInside SplitCrash SplitCrashClaims.
Import ListNotations.
Open Scope N_scope.

(** Between two accesses inside a tree operation, the reopened store shows what it shows if the
    process stops before the operation, or what it shows if it stops after it. *)
Theorem C78_unit :
  forall cf tr q i st st' n sn orc,
  cfg_ok cf -> u_op tr q i st st' -> u_in_op tr q n st sn ->
  u_alike cf (u_again cf sn orc) (u_again cf st orc) \/ u_alike cf (u_again cf sn orc) (u_again cf st' orc).
Proof. exact L_C78_unit. Qed.
Print Assumptions C78_unit.

Theorem C78_split :
  forall cf tr q i st st' n sn orc,
  cfg_ok cf -> s_op tr q i st st' -> s_in_op tr q n st sn ->
  s_alike cf (s_again cf sn orc) (s_again cf st orc) \/ s_alike cf (s_again cf sn orc) (s_again cf st' orc).
Proof. exact L_C78_split. Qed.
Print Assumptions C78_split.

(** In the trees whose sizes do not say whether a link is in use, it makes no difference where it stops. *)
Theorem C78_no_matter :
  forall cf tr tr' q i st st' n sn ss ss' sn' orc orc',
  cfg_ok cf ->
  (u_counts tr = false -> u_op tr q i st st' -> u_in_op tr q n st sn ->
     u_alike cf (u_again cf sn orc) (u_again cf st orc) /\ u_alike cf (u_again cf sn orc) (u_again cf st' orc)) /\
  (s_counts tr' = false -> s_op tr' q i ss ss' -> s_in_op tr' q n ss sn' ->
     s_alike cf (s_again cf sn' orc') (s_again cf ss orc') /\ s_alike cf (s_again cf sn' orc') (s_again cf ss' orc')).
Proof. exact L_C78_no_matter. Qed.
Print Assumptions C78_no_matter.

(** Updates of the split store: wherever inside one of its tree operations the process stops, the
    other links are as before, and link [i] is there with the fields it has at that moment, or it is
    lost, and then count counts it and each does not visit it. *)
Theorem C78_split_update :
  forall cf tops lops st d i os ot s t k tr q n st1 st2 sn orc st3,
  let SL := split_links cf tops lops in let p := s_fields k os ot s t in
  unit_env cf tops lops -> s_hist cf tops lops st d -> is_link SL st i os ot -> s_oku SL st i s t -> last_fits cf tops lops st ->
  s_end k os ot s t <> 0 -> s_stop tops st i os ot s t k = Val st1 -> s_stop tops st i os ot s t (S k) = Val st2 ->
  s_op tr q i st1 st2 -> s_in_op tr q n st1 sn -> s_open cf (s_persist sn orc) = Val (Ok st3) ->
  frame SL st st3 i /\ exists c, s_count cf st [] = Val c /\ s_count cf st3 [] = Val c /\
  (is_link SL st3 i (fst p) (snd p) /\ s_each cf (fun m _ => (m + 1, Continue)) [] st3 0 = Val (c, Continue) \/
   no_link SL st3 i /\ exists m, c = m + 1 /\ s_each cf (fun m _ => (m + 1, Continue)) [] st3 0 = Val (m, Continue)).
Proof. exact L_C78_split_update. Qed.
Print Assumptions C78_split_update.

(** With the reference operations there is such a program at every point of every update. *)
Theorem C78_split_update_realised :
  forall cf lops st d i os ot s t k,
  let SL := split_links cf ref_tree_ops lops in
  unit_env cf ref_tree_ops lops -> s_hist cf ref_tree_ops lops st d -> is_link SL st i os ot -> s_oku SL st i s t -> s_end k os ot s t <> 0 ->
  exists tr q st1 st2, s_stop ref_tree_ops st i os ot s t k = Val st1 /\ s_stop ref_tree_ops st i os ot s t (S k) = Val st2 /\ s_op tr q i st1 st2.
Proof. exact L_C78_split_update_realised. Qed.
Print Assumptions C78_split_update_realised.

(** Updates of the unit store: the same. *)
Theorem C78_unit_update_realised :
  forall cf lops st d i os ot s t w st1,
  let U := unit_links cf ref_tree_ops lops in
  unit_env cf ref_tree_ops lops -> u_hist cf ref_tree_ops lops st d -> is_link U st i os ot -> separable U st i ->
  CrashClaims.at_point ref_tree_ops st i os ot s t (before w) st1 -> end_of w os ot s t <> 0 ->
  exists q st2, tree_op ref_tree_ops w i st1 = Val st2 /\ u_op (if on_sources w then Sources else Targets) q i st1 st2.
Proof. exact L_C78_unit_update_realised. Qed.
Print Assumptions C78_unit_update_realised.

Theorem C78_nonvacuous :
  forall n,
  (forall k, In k [0; 1; 4; 5]%nat -> exists st d tr q st1 st2 sn st3, s_hist ex_cf ref_tree_ops ref_list_ops st d /\
     is_link ex_S st 2 1 2 /\ s_oku ex_S st 2 3 1 /\ last_fits ex_cf ref_tree_ops ref_list_ops st /\ s_end k 1 2 3 1 <> 0 /\
     s_stop ref_tree_ops st 2 1 2 3 1 k = Val st1 /\ s_stop ref_tree_ops st 2 1 2 3 1 (S k) = Val st2 /\ s_op tr q 2 st1 st2 /\
     s_in_op tr q n st1 sn /\ s_open ex_cf (s_persist sn all_grown) = Val (Ok st3)) /\
  (forall w, exists st d q st1 st2 sn, u_hist ex_cf ref_tree_ops ref_list_ops st d /\ is_link ex_U st 2 1 2 /\ separable ex_U st 2 /\
     CrashClaims.at_point ref_tree_ops st 2 1 2 2 2 (before w) st1 /\ u_op (if on_sources w then Sources else Targets) q 2 st1 st2 /\
     u_in_op (if on_sources w then Sources else Targets) q n st1 sn).
Proof. exact L_C78_nonvacuous. Qed.
Print Assumptions C78_nonvacuous.
