(** Deleting several links of a two-memory store used freely (C85). *)
From Coq Require Import NArith List Bool Lia Permutation Sorted.
From Verif Require Import FreeDefaults Base Trees Lists TreeInv Spec Iface UnitModel UnitInv UnitOps LinkModel SplitModel Forest
  SplitInv SplitReads SplitOps SplitWrites SplitLinks Doublets DoubletsOK Obs Hist Claims UnitHist TreeImpl SplitHist
  Decorators GoodStore DecoratorClaims Stacks SplitLife SplitFree.
From Verif Require CrashDefaults.
Import CrashDefaults(gone_by, gb_nil, gb_cons, gone_list, usages_with, is_at, NoDup_map_of).
Import ListNotations.
Open Scope N_scope.

(** delete_usages deletes the users the store finds and leaves the misfiled ones. *)
Theorem C85_delete_usages_partial :
  forall cf tops lops st Ms Mt i,
  let S := split_links cf tops lops in
  unit_env cf tops lops -> slife cf tops lops st Ms Mt -> linked S st i -> (forall j, separable S st j) ->
  (forall l, seen_user S st Ms Mt i l -> ~ Ms (l_index l) /\ ~ Mt (l_index l)) -> (forall x, x <> i -> ~ is_link S st x i i) ->
  exists st' W, NoDup W /\ (forall l, In l W <-> seen_user S st Ms Mt i l) /\ removed S st st' W /\
    slife cf tops lops st' (left_s S st Ms W) (left_t S st Mt W) /\
    (forall H B (h : uwrite H B) x, d_delete_usages_with cf S h i st x = Val (st', told h W x, Ok tt)) /\
    d_delete_usages cf S i st = Val (st', Ok tt).
Proof. exact L_C85_delete_usages_partial. Qed.
Print Assumptions C85_delete_usages_partial.

Theorem C85_delete_query_partial :
  forall cf tops lops st Ms Mt q,
  let S := split_links cf tops lops in let any := c_any cf in
  unit_env cf tops lops -> slife cf tops lops st Ms Mt -> (forall j, separable S st j) ->
  q = [] \/ (exists v, q = [any; v; any] /\ v <> any /\ linked S st v) \/ (exists v, q = [any; any; v] /\ v <> any /\ v <> 0) ->
  (forall l, answers S st any Ms Mt q l -> ~ Ms (l_index l) /\ ~ Mt (l_index l)) ->
  exists st' W, NoDup W /\ (forall l, In l W <-> answers S st any Ms Mt q l) /\ removed S st st' W /\
    slife cf tops lops st' (left_s S st Ms W) (left_t S st Mt W) /\
    forall H B (h : uwrite H B) x, d_delete_query_with S h q st x = Val (st', told h W x, Ok tt).
Proof. exact L_C85_delete_query_partial. Qed.
Print Assumptions C85_delete_query_partial.

Theorem C85_several_nonvacuous :
  exists st Ms Mt, let q := [c_any ex_cf; c_any ex_cf; 1] in
  slife ex_cf ref_tree_ops ref_list_ops st Ms Mt /\ Ms 1 /\ Mt 1 /\ is_link ex_S st 1 3 3 /\ is_link ex_S st 2 2 1 /\
  (forall j, separable ex_S st j) /\ (forall x, x <> 1 -> ~ is_link ex_S st x 1 1) /\
  seen_user ex_S st Ms Mt 1 (mkLink 2 2 1) /\ (forall l, seen_user ex_S st Ms Mt 1 l -> ~ Ms (l_index l) /\ ~ Mt (l_index l)) /\
  answers ex_S st (c_any ex_cf) Ms Mt q (mkLink 2 2 1) /\
  (forall l, answers ex_S st (c_any ex_cf) Ms Mt q l -> ~ Ms (l_index l) /\ ~ Mt (l_index l)) /\
  exists st', d_delete_usages ex_cf ex_S 1 st = Val (st', Ok tt) /\ no_link ex_S st' 2 /\ is_link ex_S st' 1 3 3.
Proof. exact L_C85_several_nonvacuous. Qed.
Print Assumptions C85_several_nonvacuous.

(** delete_usages says it has deleted the users of a link, and a user is still there. *)
Theorem C85_delete_usages_refuted :
  exists st Ms Mt st',
  slife ex_cf ref_tree_ops ref_list_ops st Ms Mt /\ linked ex_S st 3 /\ is_link ex_S st 1 3 3 /\ (forall j, separable ex_S st j) /\
  d_delete_usages ex_cf ex_S 3 st = Val (st', Ok tt) /\ is_link ex_S st' 1 3 3.
Proof. exact L_C85_delete_usages_refuted. Qed.
Print Assumptions C85_delete_usages_refuted.
