(** Property theorems: the order of the visits *)
From Coq Require Import NArith List Bool Lia Permutation Sorted.
From Verif Require Import Order Base Trees Lists TreeInv TreeImpl Spec Iface Doublets DoubletsOK Obs Hist Claims
  UnitModel UnitInv UnitOps UnitLinks UnitHist UnitClaims SplitModel Forest SplitInv SplitReads SplitOps SplitWrites SplitLinks SplitHist SplitClaims.
Import ListNotations.
Open Scope N_scope.

(** ** Claims *)
Theorem C68_split_by_target :
  forall cf tops lops st d v,
  let SL := split_links cf tops lops in
  unit_env cf tops lops -> s_hist cf tops lops st d -> linked SL st v ->
  exists L, by_target L /\ NoDup L /\ (forall i s t, In (mkLink i s t) L <-> is_link SL st i s t /\ s = v) /\
    forall H (h : rhandler H) x, s_each cf h [c_any cf; v; c_any cf] st x = Val (run_handler h L x).
Proof. exact L_C68_split_by_target. Qed.
Print Assumptions C68_split_by_target.

(** In a query [[any; v]] the links from v come first and in that order. *)
Theorem C68_split_either :
  forall cf tops lops st d v,
  let SL := split_links cf tops lops in
  unit_env cf tops lops -> s_hist cf tops lops st d -> linked SL st v ->
  exists L M, by_target L /\ NoDup L /\ NoDup M /\
    (forall i s t, In (mkLink i s t) L <-> is_link SL st i s t /\ s = v) /\
    (forall i s t, In (mkLink i s t) M <-> is_link SL st i s t /\ t = v) /\
    forall H (h : rhandler H) x, s_each cf h [c_any cf; v] st x = Val (run_handler h (L ++ M) x).
Proof. exact L_C68_split_either. Qed.
Print Assumptions C68_split_either.

(** The links decide the order: two stores that hold the same links, no two of them from v
    to the same target, show the links from v in the same order, whatever was called before
    and whichever trees are used. *)
Theorem C68_split_determined :
  forall cf tops lops tops2 lops2 st d st2 d2 v,
  let SL := split_links cf tops lops in let SL2 := split_links cf tops2 lops2 in
  unit_env cf tops lops -> unit_env cf tops2 lops2 -> s_hist cf tops lops st d -> s_hist cf tops2 lops2 st2 d2 ->
  agree SL st SL2 st2 -> linked SL st v ->
  (forall i j t, is_link SL st i v t -> is_link SL st j v t -> i = j) ->
  forall H (h : rhandler H) x,
    s_each cf h [c_any cf; v; c_any cf] st x = s_each cf h [c_any cf; v; c_any cf] st2 x.
Proof. exact L_C68_split_determined. Qed.
Print Assumptions C68_split_determined.

Theorem C68_everything :
  forall cf tops lops tops2 lops2 st d st2 d2,
  let U := unit_links cf tops lops in let SL := split_links cf tops2 lops2 in
  unit_env cf tops lops -> unit_env cf tops2 lops2 -> u_hist cf tops lops st d -> s_hist cf tops2 lops2 st2 d2 ->
  agree U st SL st2 ->
  forall q, q = [] \/ q = [c_any cf] \/ (q = [c_any cf; c_any cf] /\ 2 * c_iend cf <= c_tmax cf) \/ q = [c_any cf; c_any cf; c_any cf] ->
  forall H (h : rhandler H) x, u_each cf h q st x = s_each cf h q st2 x.
Proof. exact L_C68_everything. Qed.
Print Assumptions C68_everything.

(** find and the iterators follow: the first link found from v has the lowest target. *)
Theorem C68_split_lowest :
  forall cf tops lops st d v,
  let SL := split_links cf tops lops in
  unit_env cf tops lops -> s_hist cf tops lops st d -> linked SL st v ->
  exists o, d_find SL st [c_any cf; v; c_any cf] = Val o /\
  match o with
  | None => forall i t, ~ is_link SL st i v t
  | Some l => is_link SL st (l_index l) v (l_target l) /\ forall i t, is_link SL st i v t -> l_target l <= t
  end.
Proof. exact L_C68_split_lowest. Qed.
Print Assumptions C68_split_lowest.

(** The store with one memory keeps no such order: the same links, other visits. *)
Theorem C68_unit_source_refuted :
  exists st d st2 d2 L M,
  u_hist ex_cf ref_tree_ops ref_list_ops st d /\ u_hist ex_cf ref_tree_ops ref_list_ops st2 d2 /\
  distinct_pairs ex_U st /\ agree ex_U st ex_U st2 /\
  d_each_iter ex_U st [c_any ex_cf; 1; c_any ex_cf] = Val L /\ d_each_iter ex_U st2 [c_any ex_cf; 1; c_any ex_cf] = Val M /\
  L <> M /\ ~ by_target L.
Proof. exact L_C68_unit_source_refuted. Qed.
Print Assumptions C68_unit_source_refuted.

Theorem C68_unit_target_refuted :
  exists st d st2 d2 L M,
  u_hist ex_cf ref_tree_ops ref_list_ops st d /\ u_hist ex_cf ref_tree_ops ref_list_ops st2 d2 /\
  distinct_pairs ex_U st /\ agree ex_U st ex_U st2 /\
  d_each_iter ex_U st [c_any ex_cf; c_any ex_cf; 1] = Val L /\ d_each_iter ex_U st2 [c_any ex_cf; c_any ex_cf; 1] = Val M /\ L <> M.
Proof. exact L_C68_unit_target_refuted. Qed.
Print Assumptions C68_unit_target_refuted.

(** Nor does the store with two memories for the links to a target. *)
Theorem C68_split_target_refuted :
  exists st d st2 d2 L M,
  s_hist ex_cf ref_tree_ops ref_list_ops st d /\ s_hist ex_cf ref_tree_ops ref_list_ops st2 d2 /\
  distinct_pairs ex_S st /\ agree ex_S st ex_S st2 /\ linked ex_S st 1 /\
  d_each_iter ex_S st [c_any ex_cf; c_any ex_cf; 1] = Val L /\ d_each_iter ex_S st2 [c_any ex_cf; c_any ex_cf; 1] = Val M /\
  L <> M.
Proof. exact L_C68_split_target_refuted. Qed.
Print Assumptions C68_split_target_refuted.

Theorem C68_split_outer_refuted :
  exists st d st2 d2 L M,
  s_hist ex_cf ref_tree_ops ref_list_ops st d /\ s_hist ex_cf ref_tree_ops ref_list_ops st2 d2 /\
  distinct_pairs ex_S st /\ agree ex_S st ex_S st2 /\ no_link ex_S st 9 /\
  d_each_iter ex_S st [c_any ex_cf; 9; c_any ex_cf] = Val L /\ d_each_iter ex_S st2 [c_any ex_cf; 9; c_any ex_cf] = Val M /\
  L <> M.
Proof. exact L_C68_split_outer_refuted. Qed.
Print Assumptions C68_split_outer_refuted.

(** The hypotheses above are met: the two histories show the links of 1 in the same order. *)
Theorem C68_nonvacuous :
  exists st d st2 d2 us ud,
  s_hist ex_cf ref_tree_ops ref_list_ops st d /\ s_hist ex_cf ref_tree_ops ref_list_ops st2 d2 /\ u_hist ex_cf ref_tree_ops ref_list_ops us ud /\
  agree ex_S st ex_S st2 /\ agree ex_U us ex_S st2 /\ linked ex_S st 1 /\ distinct_pairs ex_S st /\
  d_each_iter ex_S st [c_any ex_cf; 1; c_any ex_cf] = Val [mkLink 1 1 1; mkLink 3 1 2; mkLink 2 1 3] /\
  d_each_iter ex_S st2 [c_any ex_cf; 1; c_any ex_cf] = Val [mkLink 1 1 1; mkLink 3 1 2; mkLink 2 1 3] /\
  d_each_iter ex_S st2 [c_any ex_cf; 1] = Val [mkLink 1 1 1; mkLink 3 1 2; mkLink 2 1 3; mkLink 1 1 1] /\
  d_each_iter ex_U us [] = Val [mkLink 1 1 1; mkLink 2 1 3; mkLink 3 1 2].
Proof. exact L_C68_nonvacuous. Qed.
Print Assumptions C68_nonvacuous.
