(** Deleting the links at one end of a link with delete_query (C81). *)
From Coq Require Import NArith List Bool Lia Permutation.
From Verif Require Import EndQueries Base Trees Lists Spec Iface UnitModel UnitInv UnitOps UnitLinks LinkModel SplitModel Forest
  SplitInv SplitReads SplitOps SplitWrites SplitLinks Doublets Obs DoubletsOK Hist Claims TreeImpl UnitHist SplitHist
  UnitClaims SplitClaims DefaultClaims SplitDefaults.
Import ListNotations.
Open Scope N_scope.

(** * C81: unit store *)
Theorem C81_unit_partial :
  forall cf tops lops st d v,
  let U := unit_links cf tops lops in
  unit_env cf tops lops -> u_hist cf tops lops st d -> 2 * c_iend cf <= c_tmax cf -> v <> 0 -> v <> c_any cf ->
  (forall l, u_get_link cf st (l_index l) = Val (Some l) -> l_source l = v \/ l_target l = v -> separable U st (l_index l)) ->
  (forall x, ~ is_link U st x v v) ->
  exists st' L, (exists d', u_hist cf tops lops st' d') /\ NoDup L /\
    (forall l, In l L <-> u_get_link cf st (l_index l) = Val (Some l) /\ (l_source l = v \/ l_target l = v)) /\
    removed U st st' L /\
    forall H B (h : uwrite H B) x, d_delete_query_with U h [c_any cf; v] st x = Val (st', told h (rev L) x, Ok tt).
Proof. exact L_C81_unit_partial. Qed.
Print Assumptions C81_unit_partial.

Theorem C81_unit_doubled :
  forall cf tops lops st d v x,
  let U := unit_links cf tops lops in
  unit_env cf tops lops -> u_hist cf tops lops st d -> 2 * c_iend cf <= c_tmax cf -> v <> 0 -> v <> c_any cf ->
  (forall l, u_get_link cf st (l_index l) = Val (Some l) -> l_source l = v \/ l_target l = v -> separable U st (l_index l)) ->
  is_link U st x v v ->
  exists st' L, (exists d', u_hist cf tops lops st' d') /\ NoDup L /\ In (mkLink x v v) L /\
    (forall l, In l L -> u_get_link cf st (l_index l) = Val (Some l) /\ (l_source l = v \/ l_target l = v)) /\
    removed U st st' L /\
    forall H B (h : uwrite H B) z, d_delete_query_with U h [c_any cf; v] st z = Val (st', told h L z, Err (NotExists x)).
Proof. exact L_C81_unit_doubled. Qed.
Print Assumptions C81_unit_doubled.

Theorem C81_unit_null :
  forall cf tops lops st d q,
  let U := unit_links cf tops lops in
  unit_env cf tops lops -> u_hist cf tops lops st d -> 2 * c_iend cf <= c_tmax cf -> (length q <= 3)%nat ->
  null_query (c_any cf) q ->
  forall H B (h : uwrite H B) x, d_delete_query_with U h q st x = Val (st, x, Ok tt).
Proof. exact L_C81_unit_null. Qed.
Print Assumptions C81_unit_null.

(** * C81: split store *)
Theorem C81_split_partial :
  forall cf tops lops st d v,
  let SL := split_links cf tops lops in
  unit_env cf tops lops -> s_hist cf tops lops st d -> 2 * c_iend cf <= c_tmax cf -> v <> 0 -> v <> c_any cf ->
  linked SL st v \/ no_hole SL st \/ outer_source SL st ->
  (forall l, s_get_link cf st (l_index l) = Val (Some l) -> l_source l = v \/ l_target l = v -> s_okd SL st (l_index l)) ->
  (forall x, ~ is_link SL st x v v) ->
  exists st' L, (exists d', s_hist cf tops lops st' d') /\ NoDup L /\
    (forall l, In l L <-> s_get_link cf st (l_index l) = Val (Some l) /\ (l_source l = v \/ l_target l = v)) /\
    removed SL st st' L /\
    forall H B (h : uwrite H B) x, d_delete_query_with SL h [c_any cf; v] st x = Val (st', told h (rev L) x, Ok tt).
Proof. exact L_C81_split_partial. Qed.
Print Assumptions C81_split_partial.

Theorem C81_split_doubled :
  forall cf tops lops st d v x,
  let SL := split_links cf tops lops in
  unit_env cf tops lops -> s_hist cf tops lops st d -> 2 * c_iend cf <= c_tmax cf -> v <> 0 -> v <> c_any cf ->
  linked SL st v \/ no_hole SL st \/ outer_source SL st ->
  (forall l, s_get_link cf st (l_index l) = Val (Some l) -> l_source l = v \/ l_target l = v -> s_okd SL st (l_index l)) ->
  is_link SL st x v v ->
  exists st' L, (exists d', s_hist cf tops lops st' d') /\ NoDup L /\ In (mkLink x v v) L /\
    (forall l, In l L -> s_get_link cf st (l_index l) = Val (Some l) /\ (l_source l = v \/ l_target l = v)) /\
    removed SL st st' L /\
    forall H B (h : uwrite H B) z, d_delete_query_with SL h [c_any cf; v] st z = Val (st', told h L z, Err (NotExists x)).
Proof. exact L_C81_split_doubled. Qed.
Print Assumptions C81_split_doubled.

Theorem C81_refuted :
  exists st d st', u_hist ex_cf ref_tree_ops ref_list_ops st d /\ distinct_pairs ex_U st /\
  is_link ex_U st 1 2 1 /\ is_link ex_U st 2 2 2 /\
  d_delete_query_with ex_U collect [200; 2] st [] = Val (st', [mkLink 2 2 2], Err (NotExists 2)) /\
  is_link ex_U st' 1 2 1.
Proof. exact L_C81_refuted. Qed.
Print Assumptions C81_refuted.

Theorem C81_split_refuted :
  exists st d st', s_hist ex_cf ref_tree_ops ref_list_ops st d /\ distinct_pairs ex_S st /\
  is_link ex_S st 1 2 1 /\ is_link ex_S st 2 2 2 /\
  d_delete_query_with ex_S collect [200; 2] st [] = Val (st', [mkLink 2 2 2], Err (NotExists 2)) /\
  is_link ex_S st' 1 2 1.
Proof. exact L_C81_split_refuted. Qed.
Print Assumptions C81_split_refuted.

(** A link that refers to null is not found by the query for it. *)
Theorem C81_null_refuted :
  exists st d, u_hist ex_cf ref_tree_ops ref_list_ops st d /\
  is_link ex_U st 2 0 0 /\ query_match 200 [200; 0] (mkLink 2 0 0) /\
  d_delete_query_with ex_U collect [200; 0] st [] = Val (st, [], Ok tt).
Proof. exact L_C81_null_refuted. Qed.
Print Assumptions C81_null_refuted.

Theorem C81_nonvacuous :
  exists st d st', u_hist ex_cf ref_tree_ops ref_list_ops st d /\ 2 * c_iend ex_cf <= c_tmax ex_cf /\
  (forall l, u_get_link ex_cf st (l_index l) = Val (Some l) -> l_source l = 2 \/ l_target l = 2 -> separable ex_U st (l_index l)) /\
  (forall x, ~ is_link ex_U st x 2 2) /\ is_link ex_U st 1 1 1 /\ is_link ex_U st 2 1 2 /\ is_link ex_U st 3 2 1 /\
  d_delete_query_with ex_U collect [200; 2] st [] = Val (st', [mkLink 2 1 2; mkLink 3 2 1], Ok tt) /\
  d_delete_query_with ex_U collect [200; 1] st [] =
    Val (match d_delete_query_with ex_U collect [200; 1] st [] with Val (s, _, _) => s | _ => st end,
         [mkLink 3 2 1; mkLink 1 1 1; mkLink 2 1 2], Err (NotExists 1)).
Proof. exact L_C81_nonvacuous. Qed.
Print Assumptions C81_nonvacuous.

Theorem C81_split_nonvacuous :
  exists st d st', s_hist ex_cf ref_tree_ops ref_list_ops st d /\ linked ex_S st 2 /\
  (forall l, s_get_link ex_cf st (l_index l) = Val (Some l) -> l_source l = 2 \/ l_target l = 2 -> s_okd ex_S st (l_index l)) /\
  (forall x, ~ is_link ex_S st x 2 2) /\ is_link ex_S st 1 1 1 /\ is_link ex_S st 2 1 2 /\ is_link ex_S st 3 2 1 /\
  d_delete_query_with ex_S collect [200; 2] st [] = Val (st', [mkLink 2 1 2; mkLink 3 2 1], Ok tt) /\
  d_delete_query_with ex_S collect [200; 1] st [] =
    Val (match d_delete_query_with ex_S collect [200; 1] st [] with Val (s, _, _) => s | _ => st end,
         [mkLink 3 2 1; mkLink 1 1 1; mkLink 2 1 2], Err (NotExists 1)).
Proof. exact L_C81_split_nonvacuous. Qed.
Print Assumptions C81_split_nonvacuous.
