(** Handlers that panic (C88). *)
From Coq Require Import NArith List Bool Lia.
From Verif Require Import Unwind Base Trees Lists TreeImpl Spec Iface Doublets DoubletsOK Decorators UnitModel UnitLinks UnitHist SplitModel SplitLinks
  Obs Hist Claims UnitClaims DefaultClaims SplitHist SplitClaims SplitWrites SplitDefaults HandlerClaims.
Import ListNotations.
Open Scope N_scope.

(** Whatever decorators are put over a store, a modifying method is a sequence of whole calls
    of that store, of which the handler hears one after the other; when the handler panics the
    sequence ends there, and the store is as that call left it. *)
Theorem C88_unit :
  forall cf tops lops ds,
  all_in_steps cf (unit_links cf tops lops) (wrapped_p cf ds (unit_panics cf tops lops)).
Proof. exact L_C88_unit. Qed.
Print Assumptions C88_unit.

Theorem C88_split :
  forall cf tops lops ds,
  all_in_steps cf (split_links cf tops lops) (wrapped_p cf ds (split_panics cf tops lops)).
Proof. exact L_C88_split. Qed.
Print Assumptions C88_split.

(** With handlers that do not panic these are the methods of the other claims. *)
Theorem C88_unit_returning :
  forall cf tops lops ds,
  same_calls cf (wrapped_p cf ds (unit_panics cf tops lops)) /\
  lp_links (wrapped_p cf ds (unit_panics cf tops lops)) = wrapped cf ds (unit_links cf tops lops).
Proof. exact L_C88_unit_returning. Qed.
Print Assumptions C88_unit_returning.

Theorem C88_split_returning :
  forall cf tops lops ds,
  same_calls cf (wrapped_p cf ds (split_panics cf tops lops)) /\
  lp_links (wrapped_p cf ds (split_panics cf tops lops)) = wrapped cf ds (split_links cf tops lops).
Proof. exact L_C88_split_returning. Qed.
Print Assumptions C88_split_returning.

Theorem C88_unit_kept :
  forall cf tops lops ds Q st st',
  kept (unit_links cf tops lops) Q ->
  any_call cf (wrapped_p cf ds (unit_panics cf tops lops)) st st' -> Q st -> Q st'.
Proof. exact L_C88_unit_kept. Qed.
Print Assumptions C88_unit_kept.

Theorem C88_split_kept :
  forall cf tops lops ds Q st st',
  kept (split_links cf tops lops) Q ->
  any_call cf (wrapped_p cf ds (split_panics cf tops lops)) st st' -> Q st -> Q st'.
Proof. exact L_C88_split_kept. Qed.
Print Assumptions C88_split_kept.

Theorem C88_unit_plainly :
  forall cf tops lops ds st st',
  anyhow cf (wrapped_p cf ds (unit_panics cf tops lops)) st st' -> plainly (unit_links cf tops lops) st st'.
Proof. exact L_C88_unit_plainly. Qed.
Print Assumptions C88_unit_plainly.

Theorem C88_split_plainly :
  forall cf tops lops ds st st',
  anyhow cf (wrapped_p cf ds (split_panics cf tops lops)) st st' -> plainly (split_links cf tops lops) st st'.
Proof. exact L_C88_split_plainly. Qed.
Print Assumptions C88_split_plainly.

(** On stores of the earlier claims. *)
Theorem C88_unit_update :
  forall cf tops lops st d q ch i s t,
  let U := unit_links cf tops lops in
  unit_env cf tops lops -> u_hist cf tops lops st d -> linked U st i -> separable U st i ->
  qget q 0 = Val i -> qget ch 1 = Val s -> qget ch 2 = Val t ->
  exists st' before, u_hist cf tops lops st' d /\ is_link U st' i s t /\ frame U st st' i /\
    forall H (h : panicky H flow) x, u_update_p cf tops h q ch st x = last_call h x before (mkLink i s t) st'.
Proof. exact L_C88_unit_update. Qed.
Print Assumptions C88_unit_update.

Theorem C88_unit_delete :
  forall cf tops lops st d q i s t,
  let U := unit_links cf tops lops in
  unit_env cf tops lops -> u_hist cf tops lops st d -> is_link U st i s t -> separable U st i -> qget q 0 = Val i ->
  exists st', u_hist cf tops lops st' (i :: d) /\ no_link U st' i /\ frame U st st' i /\
    forall H (h : panicky H flow) x, u_delete_p cf tops lops h q st x = last_call h x (mkLink i s t) nothing st'.
Proof. exact L_C88_unit_delete. Qed.
Print Assumptions C88_unit_delete.

Theorem C88_unit_create :
  forall cf tops lops st d H (h : panicky H flow) q x st' x' r,
  let U := unit_links cf tops lops in
  unit_env cf tops lops -> u_hist cf tops lops st d ->
  u_create_p cf lops h q st x = Val (st', x', r) ->
  u_hist cf tops lops st' d /\
  ((exists e, r = Returns (Err e) /\ x' = x /\ same_links U st st') \/
   (exists i, creates cf U st st' i /\ Val (st', x', r) = last_call h x nothing (mkLink i 0 0) st')).
Proof. exact L_C88_unit_create. Qed.
Print Assumptions C88_unit_create.

Theorem C88_unit_delete_usages :
  forall cf tops lops st d i,
  let U := unit_links cf tops lops in
  unit_env cf tops lops -> u_hist cf tops lops st d -> (forall l, user U st i l -> separable U st (l_index l)) ->
  i <> 0 -> i <> c_any cf -> (forall x, x <> i -> ~ is_link U st x i i) ->
  exists L, NoDup L /\ (forall l, In l L <-> user U st i l) /\
  forall H B (h : panicky H (option B)) x,
  match told_until h L x with
  | (x', None) => exists st' d', u_hist cf tops lops st' d' /\ removed U st st' L /\
      p_delete_usages_with cf (unit_panics cf tops lops) h i st x = Val (st', x', Returns (Ok tt))
  | (x', Some L1) => exists st' d', u_hist cf tops lops st' d' /\ removed U st st' L1 /\
      p_delete_usages_with cf (unit_panics cf tops lops) h i st x = Val (st', x', Unwinds)
  end.
Proof. exact L_C88_unit_delete_usages. Qed.
Print Assumptions C88_unit_delete_usages.

Theorem C88_unit_delete_query :
  forall cf tops lops st d q,
  let U := unit_links cf tops lops in
  unit_env cf tops lops -> u_hist cf tops lops st d ->
  (length q <= 3)%nat -> (length q = 2%nat -> 2 * c_iend cf <= c_tmax cf) ->
  ~ null_query (c_any cf) q -> ~ end_query (c_any cf) q ->
  (forall l, u_get_link cf st (l_index l) = Val (Some l) -> query_match (c_any cf) q l -> separable U st (l_index l)) ->
  exists L, NoDup L /\ (forall l, In l L <-> u_get_link cf st (l_index l) = Val (Some l) /\ query_match (c_any cf) q l) /\
  forall H B (h : panicky H (option B)) x,
  match told_until h L x with
  | (x', None) => exists st' d', u_hist cf tops lops st' d' /\ removed U st st' L /\
      p_delete_query_with (unit_panics cf tops lops) h q st x = Val (st', x', Returns (Ok tt))
  | (x', Some L1) => exists st' d', u_hist cf tops lops st' d' /\ removed U st st' L1 /\
      p_delete_query_with (unit_panics cf tops lops) h q st x = Val (st', x', Unwinds)
  end.
Proof. exact L_C88_unit_delete_query. Qed.
Print Assumptions C88_unit_delete_query.

Theorem C88_unit_create_link :
  forall cf tops lops st d s t,
  let U := unit_links cf tops lops in
  unit_env cf tops lops -> cfg_room cf -> u_hist cf tops lops st d ->
  (exists st' e, same_links U st st' /\ (exists d', u_hist cf tops lops st' d') /\
     forall H B (h : panicky H (option B)) x, p_create_link_with (unit_panics cf tops lops) h s t st x = Val (st', x, Returns (Err e))) \/
  (exists i b st1 st2, adds cf U st st1 i 0 0 /\ adds cf U st st2 i s t /\
     (exists d1, u_hist cf tops lops st1 d1) /\ (exists d2, u_hist cf tops lops st2 d2) /\
     forall H B (h : panicky H (option B)) x, p_create_link_with (unit_panics cf tops lops) h s t st x =
       match h x nothing (mkLink i 0 0) with
       | (x1, None) => Val (st1, x1, Unwinds)
       | (x1, Some _) =>
           match h x1 b (mkLink i s t) with
           | (x2, None) => Val (st2, x2, Unwinds)
           | (x2, Some o) => Val (st2, x2, Returns (Ok (flow_of o)))
           end
       end).
Proof. exact L_C88_unit_create_link. Qed.
Print Assumptions C88_unit_create_link.

Theorem C88_split_delete_usages :
  forall cf tops lops st d i,
  let SL := split_links cf tops lops in
  unit_env cf tops lops -> s_hist cf tops lops st d -> (forall l, user SL st i l -> s_okd SL st (l_index l)) ->
  linked SL st i -> (forall x, x <> i -> ~ is_link SL st x i i) ->
  exists L, NoDup L /\ (forall l, In l L <-> user SL st i l) /\
  forall H B (h : panicky H (option B)) x,
  match told_until h L x with
  | (x', None) => exists st' d', s_hist cf tops lops st' d' /\ removed SL st st' L /\
      p_delete_usages_with cf (split_panics cf tops lops) h i st x = Val (st', x', Returns (Ok tt))
  | (x', Some L1) => exists st' d', s_hist cf tops lops st' d' /\ removed SL st st' L1 /\
      p_delete_usages_with cf (split_panics cf tops lops) h i st x = Val (st', x', Unwinds)
  end.
Proof. exact L_C88_split_delete_usages. Qed.
Print Assumptions C88_split_delete_usages.

Theorem C88_split_create_link :
  forall cf tops lops st d s t,
  let SL := split_links cf tops lops in
  unit_env cf tops lops -> c_iend cf + 1 + c_step cf <= c_tmax cf -> s_hist cf tops lops st d ->
  next_unreferred SL st -> (t = 0 -> s = 0) ->
  (exists st' e, same_links SL st st' /\ (exists d', s_hist cf tops lops st' d') /\
     forall H B (h : panicky H (option B)) x, p_create_link_with (split_panics cf tops lops) h s t st x = Val (st', x, Returns (Err e))) \/
  (exists i b st1 st2, adds cf SL st st1 i 0 0 /\ adds cf SL st st2 i s t /\
     (exists d1, s_hist cf tops lops st1 d1) /\ (exists d2, s_hist cf tops lops st2 d2) /\
     forall H B (h : panicky H (option B)) x, p_create_link_with (split_panics cf tops lops) h s t st x =
       match h x nothing (mkLink i 0 0) with
       | (x1, None) => Val (st1, x1, Unwinds)
       | (x1, Some _) =>
           match h x1 b (mkLink i s t) with
           | (x2, None) => Val (st2, x2, Unwinds)
           | (x2, Some o) => Val (st2, x2, Returns (Ok (flow_of o)))
           end
       end).
Proof. exact L_C88_split_create_link. Qed.
Print Assumptions C88_split_create_link.

(** The links 3: 1->2, 4: 2->1 and 5: 3->1 use 1; told of the second deletion the handler
    panics and the third link stays. *)
Theorem C88_nonvacuous :
  cfg_room ex_cf /\ exists st d, u_hist ex_cf ref_tree_ops ref_list_ops st d /\
  (forall l, user ex_U st 1 l -> separable ex_U st (l_index l)) /\ (forall x, x <> 1 -> ~ is_link ex_U st x 1 1) /\
  (exists st', p_delete_usages_with ex_cf (unit_panics ex_cf ref_tree_ops ref_list_ops) (nth_panics (@None unit) 1) 1 st []
       = Val (st', [(mkLink 5 3 1, nothing); (mkLink 4 2 1, nothing)], Unwinds) /\
     no_link ex_U st' 5 /\ no_link ex_U st' 4 /\ is_link ex_U st' 3 1 2 /\ is_link ex_U st' 1 1 1) /\
  (exists st', p_delete_usages_with ex_cf (unit_panics ex_cf ref_tree_ops ref_list_ops) (nth_panics (@None unit) 3) 1 st []
       = Val (st', [(mkLink 5 3 1, nothing); (mkLink 4 2 1, nothing); (mkLink 3 1 2, nothing)], Returns (Ok tt)) /\
     no_link ex_U st' 3 /\ is_link ex_U st' 1 1 1) /\
  (exists st', u_update_p ex_cf ref_tree_ops (nth_panics Continue 0) [3] [3; 2; 2] st [] = Val (st', [(mkLink 3 2 2, mkLink 3 2 2)], Unwinds) /\
     is_link ex_U st' 3 2 2) /\
  exists st', p_delete_query_with (unit_panics ex_cf ref_tree_ops ref_list_ops) (nth_panics (@None unit) 0) [200; 200; 1] st []
       = Val (st', [(mkLink 5 3 1, nothing)], Unwinds) /\
     no_link ex_U st' 5 /\ is_link ex_U st' 4 2 1.
Proof. exact L_C88_nonvacuous. Qed.
Print Assumptions C88_nonvacuous.

(** The decorator that deletes usages first, over both stores: the link asked for stays. *)
Theorem C88_wrapped_nonvacuous :
  (exists st d st', u_hist ex_cf ref_tree_ops ref_list_ops st d /\
     lp_delete (wrapped_p ex_cf [DCascadeUsages] (unit_panics ex_cf ref_tree_ops ref_list_ops)) _ (nth_panics Continue 2) [1] st []
       = Val (st', [(mkLink 5 3 1, nothing); (mkLink 4 2 1, nothing); (mkLink 3 1 2, nothing)], Unwinds) /\
     is_link ex_U st' 1 1 1 /\ no_link ex_U st' 3) /\
  (exists st d st', s_hist ex_cf ref_tree_ops ref_list_ops st d /\ distinct_pairs ex_S st /\
     linked ex_S st 1 /\ (forall x, x <> 1 -> ~ is_link ex_S st x 1 1) /\ is_link ex_S st 2 1 2 /\ is_link ex_S st 5 51 1 /\
     lp_delete (wrapped_p ex_cf [DCascadeUsages] (split_panics ex_cf ref_tree_ops ref_list_ops)) _ (nth_panics Continue 0) [1] st []
       = Val (st', [(mkLink 5 51 1, nothing)], Unwinds) /\
     no_link ex_S st' 5 /\ is_link ex_S st' 2 1 2 /\ is_link ex_S st' 1 1 1) /\
  (exists st d st1, s_hist ex_cf ref_tree_ops ref_list_ops st d /\ next_unreferred ex_S st /\
     p_create_link_with (split_panics ex_cf ref_tree_ops ref_list_ops) (nth_panics (@None unit) 1) 2 1 st []
       = Val (st1, [(nothing, mkLink 3 0 0); (mkLink 3 0 0, mkLink 3 2 1)], Unwinds) /\ is_link ex_S st1 3 2 1).
Proof. exact L_C88_wrapped_nonvacuous. Qed.
Print Assumptions C88_wrapped_nonvacuous.

Theorem C88_all_or_nothing_refuted :
  exists st d, u_hist ex_cf ref_tree_ops ref_list_ops st d /\
  ~ nothing_done ex_U st (p_delete_usages_with ex_cf (unit_panics ex_cf ref_tree_ops ref_list_ops) (nth_panics (@None unit) 0) 1 st []) /\
  (exists st', p_create_link_with (unit_panics ex_cf ref_tree_ops ref_list_ops) (nth_panics (@None unit) 0) 1 1 st []
     = Val (st', [(nothing, mkLink 6 0 0)], Unwinds) /\ no_link ex_U st 6 /\ is_link ex_U st' 6 0 0).
Proof. exact L_C88_all_or_nothing_refuted. Qed.
Print Assumptions C88_all_or_nothing_refuted.
