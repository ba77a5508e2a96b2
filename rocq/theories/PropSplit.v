(** Properties of the two-memory store, for every reachable state. *)
From Coq Require Import NArith List Bool Lia Permutation Sorted.
From Verif Require Import SplitClaims Base Trees Lists Spec Iface UnitModel UnitInv UnitOps UnitLinks LinkModel SplitModel Forest
  SplitInv SplitReads SplitOps SplitWrites SplitLinks Doublets Obs DoubletsOK Hist Claims TreeImpl UnitHist SplitHist.
Import ListNotations.
Open Scope N_scope.

(** The link is changed, the rest is not; the handler is told the old and the new link. *)
Theorem C25_update :
  forall cf tops lops st d q ch i os ot s t,
  let SL := split_links cf tops lops in
  unit_env cf tops lops -> s_hist cf tops lops st d ->
  is_link SL st i os ot -> s_oku SL st i s t ->
  qget q 0 = Val i -> qget ch 1 = Val s -> qget ch 2 = Val t ->
  exists st', s_hist cf tops lops st' d /\
    calls_once (fun H h x => s_update cf tops h q ch st x) st' (mkLink i os ot) (mkLink i s t) /\
    is_link SL st' i s t /\ frame SL st st' i /\ s_count cf st' [] = s_count cf st [].
Proof. exact L_C25_update. Qed.
Print Assumptions C25_update.

Theorem C25_update_nonvacuous :
  exists st d, s_hist ex_cf ref_tree_ops ref_list_ops st d /\
  is_link ex_S st 3 2 1 /\ s_oku ex_S st 3 1 7 /\ is_link ex_S st 1 1 1.
Proof. exact L_C25_update_nonvacuous. Qed.
Print Assumptions C25_update_nonvacuous.

(** The C14 claim holds of this store. *)
Theorem C14_split_update_before :
  forall cf tops lops st d i os ot s t,
  let SL := split_links cf tops lops in
  unit_env cf tops lops -> s_hist cf tops lops st d ->
  is_link SL st i os ot -> s_oku SL st i s t ->
  exists st', is_link SL st' i s t /\
    calls_once (fun H h x => s_update cf tops h [i] [i; s; t] st x) st' (mkLink i os ot) (mkLink i s t).
Proof. exact L_C14_split_update_before. Qed.
Print Assumptions C14_split_update_before.

Theorem C14_split_nonvacuous :
  exists st d, s_hist ex_cf ref_tree_ops ref_list_ops st d /\
  match s_update ex_cf ref_tree_ops (fun v b a => (v ++ [(b, a)], Continue)) [3] [3; 1; 7] st [] with
  | Val (_, v, r) => v = [(mkLink 3 2 1, mkLink 3 1 7)] /\ r = Ok Continue | _ => False end.
Proof. exact L_C14_split_nonvacuous. Qed.
Print Assumptions C14_split_nonvacuous.

Theorem C25_delete :
  forall cf tops lops st d q i s t,
  let SL := split_links cf tops lops in
  unit_env cf tops lops -> s_hist cf tops lops st d ->
  is_link SL st i s t -> s_okd SL st i -> qget q 0 = Val i ->
  exists st', s_hist cf tops lops st' (i :: d) /\
    calls_once (fun H h x => s_delete cf tops lops h q st x) st' (mkLink i s t) nothing /\
    no_link SL st' i /\ frame SL st st' i /\
    exists n, s_count cf st [] = Val (n + 1) /\ s_count cf st' [] = Val n.
Proof. exact L_C25_delete. Qed.
Print Assumptions C25_delete.

Theorem C25_delete_nonvacuous :
  exists st d, s_hist ex_cf ref_tree_ops ref_list_ops st d /\
  is_link ex_S st 1 1 1 /\ s_okd ex_S st 1 /\ is_link ex_S st 2 1 2 /\ is_link ex_S st 3 2 1.
Proof. exact L_C25_delete_nonvacuous. Qed.
Print Assumptions C25_delete_nonvacuous.

Theorem C25_missing_links :
  forall cf tops lops st d q ch i s t,
  let SL := split_links cf tops lops in
  unit_env cf tops lops -> s_hist cf tops lops st d -> no_link SL st i ->
  qget q 0 = Val i -> qget ch 1 = Val s -> qget ch 2 = Val t ->
  fails_with (fun H h x => s_update cf tops h q ch st x) st (NotExists i) /\
  fails_with (fun H h x => s_delete cf tops lops h q st x) st (NotExists i).
Proof. exact L_C25_missing_links. Qed.
Print Assumptions C25_missing_links.

Theorem C25_missing_nonvacuous :
  exists st d, s_hist ex_cf ref_tree_ops ref_list_ops st d /\
  no_link ex_S st 4 /\ no_link ex_S st 7 /\ is_link ex_S st 3 2 4.
Proof. exact L_C25_missing_nonvacuous. Qed.
Print Assumptions C25_missing_nonvacuous.

(** Creation: exactly one of four outcomes; in the last one the state is again one of the
    discipline if the index is not referred to. *)
Theorem C25_create :
  forall cf tops lops st d q,
  let SL := split_links cf tops lops in
  unit_env cf tops lops -> c_iend cf + 1 + c_step cf <= c_tmax cf -> s_hist cf tops lops st d ->
  (range_full cf SL st /\ fails_with (fun H h x => s_create cf tops lops h q st x) st (LimitReached (c_iend cf))) \/
  (~ range_full cf SL st /\ no_hole SL st /\ exists st', s_hist cf tops lops st' d /\ same_links SL st st' /\
     s_count cf st' [] = s_count cf st [] /\
     fails_with (fun H h x => s_create cf tops lops h q st x) st' AllocFailed) \/
  (~ range_full cf SL st /\ exists i st', creates cf SL st st' i /\
     (unreferred SL st i -> s_hist cf tops lops st' d) /\
     calls_once (fun H h x => s_create cf tops lops h q st x) st' nothing (mkLink i 0 0) /\
     ((exists later earlier, d = later ++ i :: earlier /\ hole SL st i /\ (forall k, In k later -> ~ hole SL st k)) \/
      (no_hole SL st /\ (forall k, linked SL st k -> k < i) /\ (i = 1 \/ linked SL st (i - 1))))).
Proof. exact L_C25_create. Qed.
Print Assumptions C25_create.

Theorem C25_create_nonvacuous :
  c_iend ex_cf + 1 + c_step ex_cf <= c_tmax ex_cf /\
  exists st d st', s_hist ex_cf ref_tree_ops ref_list_ops st d /\ is_link ex_S st 2 0 0 /\ unreferred ex_S st 1 /\
    s_create ex_cf ref_tree_ops ref_list_ops (fun _ _ l => (l, Continue)) [] st nothing = Val (st', mkLink 1 0 0, Ok Continue).
Proof. exact L_C25_create_nonvacuous. Qed.
Print Assumptions C25_create_nonvacuous.

Theorem C25_count_and_each_all :
  forall cf tops lops st d q,
  let SL := split_links cf tops lops in let any := c_any cf in
  unit_env cf tops lops -> s_hist cf tops lops st d ->
  q = [] \/ q = [any] \/ q = [any; any] \/ q = [any; any; any] ->
  exists L, all_links SL st L /\ s_count cf st q = Val (N.of_nat (length L)) /\
    forall H (h : rhandler H) x, s_each cf h q st x = Val (run_handler h L x).
Proof. exact L_C25_count_and_each_all. Qed.
Print Assumptions C25_count_and_each_all.

Theorem C25_all_nonvacuous :
  exists st d, s_hist ex_cf ref_tree_ops ref_list_ops st d /\ s_count ex_cf st [] = Val 4 /\
  s_each ex_cf (fun v l => (v ++ [l_index l], Continue)) [] st [] = Val ([1; 2; 3; 5], Continue).
Proof. exact L_C25_all_nonvacuous. Qed.
Print Assumptions C25_all_nonvacuous.

Theorem C25_no_panic :
  forall cf tops lops st d,
  let SL := split_links cf tops lops in
  unit_env cf tops lops -> c_iend cf + 1 + c_step cf <= c_tmax cf -> 2 * c_iend cf <= c_tmax cf ->
  s_hist cf tops lops st d ->
  (forall i, returns (s_get_link cf st i)) /\
  (forall q, countable (c_any cf) SL st q -> returns (s_count cf st q)) /\
  (forall H (h : rhandler H) q x, (length q <= 3)%nat -> plain_query (c_any cf) q -> returns (s_each cf h q st x)) /\
  (forall H (h : whandler H) q x, returns (s_create cf tops lops h q st x)) /\
  (forall H (h : whandler H) q ch x i s t, s_oku SL st i s t ->
     qget q 0 = Val i -> qget ch 1 = Val s -> qget ch 2 = Val t -> returns (s_update cf tops h q ch st x)) /\
  (forall H (h : whandler H) q x i, s_okd SL st i ->
     qget q 0 = Val i -> returns (s_delete cf tops lops h q st x)).
Proof. exact L_C25_no_panic. Qed.
Print Assumptions C25_no_panic.

Theorem C25_no_panic_nonvacuous :
  unit_env ex_cf ref_tree_ops ref_list_ops /\
  c_iend ex_cf + 1 + c_step ex_cf <= c_tmax ex_cf /\ 2 * c_iend ex_cf <= c_tmax ex_cf /\
  exists st d, s_hist ex_cf ref_tree_ops ref_list_ops st d /\ hole ex_S st 4 /\ is_link ex_S st 3 2 4.
Proof. exact L_C25_no_panic_nonvacuous. Qed.
Print Assumptions C25_no_panic_nonvacuous.

Theorem C15_split_handlers_told_the_truth :
  forall cf tops lops st d H (h : whandler H) q x st' x' r,
  let SL := split_links cf tops lops in
  unit_env cf tops lops -> s_hist cf tops lops st d ->
  (s_create cf tops lops h q st x = Val (st', x', r) ->
     match r with
     | Ok f => exists i, no_link SL st i /\ is_link SL st' i 0 0 /\ (x', f) = h x nothing (mkLink i 0 0)
     | Err _ => x' = x
     end) /\
  (forall i, qget q 0 = Val i -> s_okd SL st i -> s_delete cf tops lops h q st x = Val (st', x', r) ->
     match r with
     | Ok f => exists s t, is_link SL st i s t /\ no_link SL st' i /\ (x', f) = h x (mkLink i s t) nothing
     | Err _ => x' = x
     end).
Proof. exact L_C15_split_handlers_told_the_truth. Qed.
Print Assumptions C15_split_handlers_told_the_truth.

Theorem C15_split_nonvacuous :
  exists st d, s_hist ex_cf ref_tree_ops ref_list_ops st d /\
  match s_delete ex_cf ref_tree_ops ref_list_ops (fun l b a => (l ++ [(b, a)], Break)) [2] st [] with
  | Val (_, x', r) => x' = [(mkLink 2 1 2, nothing)] /\ r = Ok Break | _ => False end.
Proof. exact L_C15_split_nonvacuous. Qed.
Print Assumptions C15_split_nonvacuous.

(** * C51 *)
Theorem C51_split_each_visits_matches :
  forall cf tops lops st d q,
  let SL := split_links cf tops lops in
  unit_env cf tops lops -> s_hist cf tops lops st d ->
  (length q <= 3)%nat -> plain_query (c_any cf) q -> ~ end_query (c_any cf) q ->
  (pair_query (c_any cf) q -> one_match (c_any cf) SL st q) ->
  exists L, NoDup L /\
    (forall l, In l L <-> s_get_link cf st (l_index l) = Val (Some l) /\ query_match (c_any cf) q l) /\
    forall H (h : rhandler H) x, s_each cf h q st x = Val (run_handler h L x).
Proof. exact L_C51_split_each_visits_matches. Qed.
Print Assumptions C51_split_each_visits_matches.

Theorem C51_nonvacuous :
  exists st d, s_hist ex_cf ref_tree_ops ref_list_ops st d /\ distinct_pairs ex_S st /\
  plain_query 200 [200; 200; 4] /\ ~ end_query 200 [200; 200; 4] /\
  s_each ex_cf (fun v l => (v ++ [l], Continue)) [200; 200; 4] st [] = Val ([mkLink 3 2 4], Continue) /\
  s_each ex_cf (fun v l => (v ++ [l_index l], Continue)) [200; 1; 200] st [] = Val ([1; 2], Continue).
Proof. exact L_C51_nonvacuous. Qed.
Print Assumptions C51_nonvacuous.

(** A query for a pair shows one of the links with that pair, also where several have it. *)
Theorem C51_split_each_one_of_pair :
  forall cf tops lops st d s t,
  let SL := split_links cf tops lops in
  unit_env cf tops lops -> s_hist cf tops lops st d -> plain_query (c_any cf) [c_any cf; s; t] ->
  s <> 0 -> s <> c_any cf -> t <> c_any cf ->
  (forall i, ~ is_link SL st i s t) /\
    (forall H (h : rhandler H) x, s_each cf h [c_any cf; s; t] st x = Val (x, Continue)) \/
  exists i, is_link SL st i s t /\
    forall H (h : rhandler H) x, s_each cf h [c_any cf; s; t] st x = Val (h x (mkLink i s t)).
Proof. exact L_C51_split_each_one_of_pair. Qed.
Print Assumptions C51_split_each_one_of_pair.

Theorem C51_one_of_pair_nonvacuous :
  exists st d, s_hist ex_cf ref_tree_ops ref_list_ops st d /\
  plain_query 200 [200; 1; 2] /\ is_link ex_S st 2 1 2 /\ is_link ex_S st 4 1 2 /\
  (exists i, s_each ex_cf (fun v l => (v ++ [l], Continue)) [200; 1; 2] st [] = Val ([mkLink i 1 2], Continue)) /\
  s_each ex_cf (fun v l => (v ++ [l], Continue)) [200; 2; 2] st [] = Val ([], Continue).
Proof. exact L_C51_one_of_pair_nonvacuous. Qed.
Print Assumptions C51_one_of_pair_nonvacuous.

(** Both ends: the links with source [v], then those with target [v]. *)
Theorem C51_split_each_either_end :
  forall cf tops lops st d v,
  let SL := split_links cf tops lops in
  unit_env cf tops lops -> s_hist cf tops lops st d -> v <> 0 -> v <> c_any cf ->
  exists L1 L2, NoDup L1 /\ NoDup L2 /\
    (forall l, In l L1 <-> s_get_link cf st (l_index l) = Val (Some l) /\ l_source l = v) /\
    (forall l, In l L2 <-> s_get_link cf st (l_index l) = Val (Some l) /\ l_target l = v) /\
    forall H (h : rhandler H) x, s_each cf h [c_any cf; v] st x = Val (run_handler h (L1 ++ L2) x).
Proof. exact L_C51_split_each_either_end. Qed.
Print Assumptions C51_split_each_either_end.

Theorem C51_either_end_nonvacuous :
  exists st d, s_hist ex_cf ref_tree_ops ref_list_ops st d /\
  s_each ex_cf (fun v l => (v ++ [l_index l], Continue)) [200; 1] st [] = Val ([1; 2; 1; 5], Continue).
Proof. exact L_C51_either_end_nonvacuous. Qed.
Print Assumptions C51_either_end_nonvacuous.

(** A query for the null source once there are holes visits links that do not match. *)
Theorem C51_null_source_refuted :
  exists st d, s_hist ex_cf ref_tree_ops ref_list_ops st d /\
  distinct_pairs ex_S st /\ is_link ex_S st 2 0 0 /\ is_link ex_S st 3 0 0 /\
  s_each ex_cf (fun v l => (v ++ [l], Continue)) [200; 0; 200] st [] = Val ([mkLink 3 0 0], Continue).
Proof. exact L_C51_null_source_refuted. Qed.
Print Assumptions C51_null_source_refuted.

(** * C26 *)
Theorem C26_updated_link_readable_partial :
  forall cf tops lops st d i s t,
  let SL := split_links cf tops lops in
  unit_env cf tops lops -> s_hist cf tops lops st d ->
  linked SL st i -> separable SL st i -> (t = 0 -> s = 0) -> (s = i \/ t = i -> exists ot, is_link SL st i 0 ot) ->
  exists st', d_update SL i s t st = Val (st', Ok i) /\ is_link SL st' i s t.
Proof. exact L_C26_updated_link_readable_partial. Qed.
Print Assumptions C26_updated_link_readable_partial.

Theorem C26_partial_nonvacuous :
  exists st d, s_hist ex_cf ref_tree_ops ref_list_ops st d /\
  linked ex_S st 3 /\ separable ex_S st 3 /\ (7 = 0 -> 1 = 0) /\ is_link ex_S st 1 1 1.
Proof. exact L_C26_partial_nonvacuous. Qed.
Print Assumptions C26_partial_nonvacuous.

(** A link updated to a source without target disappears, although still counted. *)
Theorem C26_updated_link_refuted :
  exists st d st', s_hist ex_cf ref_tree_ops ref_list_ops st d /\
  is_link ex_S st 1 0 0 /\ is_link ex_S st 2 0 0 /\
  d_update ex_S 1 2 0 st = Val (st', Ok 1) /\ no_link ex_S st' 1 /\
  s_count ex_cf st' [] = Val 2 /\
  s_each ex_cf (fun v l => (v ++ [l], Continue)) [] st' [] = Val ([mkLink 2 0 0], Continue).
Proof. exact L_C26_updated_link_refuted. Qed.
Print Assumptions C26_updated_link_refuted.

(** * C27 *)
Theorem C27_count_equals_visits_partial :
  forall cf tops lops st d q,
  let SL := split_links cf tops lops in
  unit_env cf tops lops -> 2 * c_iend cf <= c_tmax cf -> s_hist cf tops lops st d ->
  plain_query (c_any cf) q -> countable (c_any cf) SL st q ->
  exists n, s_count cf st q = Val n /\
    s_each cf (fun k _ => (k + 1, Continue)) q st 0 = Val (n, Continue).
Proof. exact L_C27_count_equals_visits_partial. Qed.
Print Assumptions C27_count_equals_visits_partial.

Theorem C27_partial_nonvacuous :
  exists st d, s_hist ex_cf ref_tree_ops ref_list_ops st d /\
  plain_query 200 [200; 1; 200] /\ countable 200 ex_S st [200; 1; 200] /\
  s_count ex_cf st [200; 1; 200] = Val 2 /\ s_count ex_cf st [200; 1] = Val 4 /\ countable 200 ex_S st [200; 1].
Proof. exact L_C27_partial_nonvacuous. Qed.
Print Assumptions C27_partial_nonvacuous.

(** An exact pair [2, 1] counts links with both ends 1 instead of one. *)
Theorem C27_index_and_end_refuted :
  exists st d, s_hist ex_cf ref_tree_ops ref_list_ops st d /\ distinct_pairs ex_S st /\
  s_count ex_cf st [2; 1] = Val 0 /\
  s_each ex_cf (fun v l => (v ++ [l], Continue)) [2; 1] st [] = Val ([mkLink 2 1 2], Continue).
Proof. exact L_C27_index_and_end_refuted. Qed.
Print Assumptions C27_index_and_end_refuted.

(** Counting the links with a source that is not a link, when there is none, returns the
    first unused index (here 3) instead of 0. *)
Theorem C27_outer_source_refuted :
  exists st d, s_hist ex_cf ref_tree_ops ref_list_ops st d /\ distinct_pairs ex_S st /\
  s_count ex_cf st [200; 1; 200] = Val 3 /\ s_count ex_cf st [200; 1] = Val 3 /\
  s_each ex_cf (fun v l => (v ++ [l], Continue)) [200; 1; 200] st [] = Val ([], Continue) /\
  s_each ex_cf (fun v l => (v ++ [l], Continue)) [200; 1] st [] = Val ([], Continue).
Proof. exact L_C27_outer_source_refuted. Qed.
Print Assumptions C27_outer_source_refuted.

(** Counting a pair whose source is not a link ignores the target. *)
Theorem C27_outer_pair_refuted :
  exists st d, s_hist ex_cf ref_tree_ops ref_list_ops st d /\ distinct_pairs ex_S st /\
  s_count ex_cf st [200; 5; 7] = Val 2 /\
  s_each ex_cf (fun v l => (v ++ [l], Continue)) [200; 5; 7] st [] = Val ([], Continue).
Proof. exact L_C27_outer_pair_refuted. Qed.
Print Assumptions C27_outer_pair_refuted.

(** As long as the index is not used again the dangling references are found. *)
Theorem C28_dangling_found_partial :
  forall cf tops lops st d i x s t,
  let SL := split_links cf tops lops in
  unit_env cf tops lops -> s_hist cf tops lops st d -> no_link SL st i -> i <> 0 -> i <> c_any cf ->
  is_link SL st x s t ->
  (s = i -> exists L, In (mkLink x s t) L /\
     forall H (h : rhandler H) y, s_each cf h [c_any cf; i; c_any cf] st y = Val (run_handler h L y)) /\
  (t = i -> exists L, In (mkLink x s t) L /\
     forall H (h : rhandler H) y, s_each cf h [c_any cf; c_any cf; i] st y = Val (run_handler h L y)).
Proof. exact L_C28_dangling_found_partial. Qed.
Print Assumptions C28_dangling_found_partial.

Theorem C28_partial_nonvacuous :
  exists st d, s_hist ex_cf ref_tree_ops ref_list_ops st d /\
  no_link ex_S st 4 /\ is_link ex_S st 3 2 4.
Proof. exact L_C28_partial_nonvacuous. Qed.
Print Assumptions C28_partial_nonvacuous.

(** Once it is used again none of them is found: queries by the new index visit nothing,
    whatever refers to it. *)
Theorem C28_dangling_always_lost :
  forall cf tops lops st d H (h : whandler H) q x st' x' f i,
  let SL := split_links cf tops lops in
  unit_env cf tops lops -> s_hist cf tops lops st d ->
  s_create cf tops lops h q st x = Val (st', x', Ok f) -> no_link SL st i -> linked SL st' i ->
  (forall j s t, j <> i -> is_link SL st j s t -> is_link SL st' j s t) /\
  (forall H2 (h2 : rhandler H2) y, s_each cf h2 [c_any cf; i; c_any cf] st' y = Val (y, Continue)) /\
  (forall H2 (h2 : rhandler H2) y, s_each cf h2 [c_any cf; c_any cf; i] st' y = Val (y, Continue)).
Proof. exact L_C28_dangling_always_lost. Qed.
Print Assumptions C28_dangling_always_lost.

Theorem C28_dangling_refuted :
  exists st d st', s_hist ex_cf ref_tree_ops ref_list_ops st d /\ distinct_pairs ex_S st /\
  no_link ex_S st 2 /\ is_link ex_S st 1 2 3 /\ is_link ex_S st 3 1 2 /\
  d_create ex_S st = Val (st', Ok 2) /\ is_link ex_S st' 1 2 3 /\ is_link ex_S st' 3 1 2 /\
  s_each ex_cf (fun v l => (v ++ [l], Continue)) [200; 2; 200] st' [] = Val ([], Continue) /\
  s_each ex_cf (fun v l => (v ++ [l], Continue)) [200; 200; 2] st' [] = Val ([], Continue).
Proof. exact L_C28_dangling_refuted. Qed.
Print Assumptions C28_dangling_refuted.

(** * C29 *)
Theorem C29_self_reference_found_partial :
  forall cf tops lops st d i ot t,
  let SL := split_links cf tops lops in
  unit_env cf tops lops -> s_hist cf tops lops st d ->
  is_link SL st i 0 ot -> separable SL st i -> t <> 0 ->
  exists st' L, d_update SL i i t st = Val (st', Ok i) /\ s_hist cf tops lops st' d /\ In (mkLink i i t) L /\
    forall H (h : rhandler H) y, s_each cf h [c_any cf; i; c_any cf] st' y = Val (run_handler h L y).
Proof. exact L_C29_self_reference_found_partial. Qed.
Print Assumptions C29_self_reference_found_partial.

Theorem C29_partial_nonvacuous :
  exists st d, s_hist ex_cf ref_tree_ops ref_list_ops st d /\
  is_link ex_S st 2 0 1 /\ separable ex_S st 2 /\ is_link ex_S st 1 1 1.
Proof. exact L_C29_partial_nonvacuous. Qed.
Print Assumptions C29_partial_nonvacuous.

Theorem C29_self_reference_refuted :
  exists st d st', s_hist ex_cf ref_tree_ops ref_list_ops st d /\ distinct_pairs ex_S st /\
  is_link ex_S st 1 2 1 /\ d_update ex_S 1 1 2 st = Val (st', Ok 1) /\ is_link ex_S st' 1 1 2 /\
  s_each ex_cf (fun v l => (v ++ [l], Continue)) [200; 1; 200] st' [] = Val ([], Continue) /\
  d_search ex_cf ex_S st' 1 2 = Val None.
Proof. exact L_C29_self_reference_refuted. Qed.
Print Assumptions C29_self_reference_refuted.

(** * C13 for this store *)
Theorem C13_split_reopen_partial :
  forall cf tops lops st d top orc,
  let SL := split_links cf tops lops in
  let c := s_capacity cf top in
  unit_env cf tops lops -> s_hist cf tops lops st d -> both_or_none orc ->
  (forall i, linked SL st i -> i <= top) -> (top = 0 \/ linked SL st top) ->
  top < c_page cf \/ top < c_step cf \/ top mod c_step cf <> 0 -> c - 1 <= c_tmax cf ->
  orc 0%nat (c_page cf) (c_page cf) = Grown -> orc 1%nat c c = Grown ->
  exists st', s_open cf (s_persist st orc) = Val (Ok st') /\ s_hist cf tops lops st' d /\
    same_links SL st st' /\ s_count cf st' [] = s_count cf st [].
Proof. exact L_C13_split_reopen_partial. Qed.
Print Assumptions C13_split_reopen_partial.

Theorem C13_split_partial_nonvacuous :
  exists st d, s_hist ex_cf ref_tree_ops ref_list_ops st d /\
  (forall i, linked ex_S st i -> i <= 5) /\ linked ex_S st 5 /\ 5 < c_step ex_cf /\ hole ex_S st 4 /\
  s_capacity ex_cf 5 - 1 <= c_tmax ex_cf.
Proof. exact L_C13_split_partial_nonvacuous. Qed.
Print Assumptions C13_split_partial_nonvacuous.

(** With exactly as many links as the step (here 8) the last link is out of reach. *)
Theorem C13_split_reopen_refuted :
  exists st d st', s_hist ex_cf ref_tree_ops ref_list_ops st d /\
  is_link ex_S st 8 0 0 /\ s_open ex_cf (s_persist st all_grown) = Val (Ok st') /\
  s_get_link ex_cf st' 8 = Panic /\ s_each ex_cf (fun n _ => (n + 1, Continue)) [] st' 0 = Panic.
Proof. exact L_C13_split_reopen_refuted. Qed.
Print Assumptions C13_split_reopen_refuted.

(** This is so for every store whose highest link is such a multiple. *)
Theorem C13_split_reopen_always_lost :
  forall cf tops lops st d top orc st',
  let SL := split_links cf tops lops in
  unit_env cf tops lops -> s_hist cf tops lops st d ->
  linked SL st top -> (forall i, linked SL st i -> i <= top) ->
  c_page cf <= top -> c_step cf <= top -> top mod c_step cf = 0 ->
  s_open cf (s_persist st orc) = Val (Ok st') ->
  s_get_link cf st' top = Panic /\
  forall H (h : rhandler H) x, (forall y l, snd (h y l) = Continue) -> s_each cf h [] st' x = Panic.
Proof. exact L_C13_split_reopen_always_lost. Qed.
Print Assumptions C13_split_reopen_always_lost.

(** A creation that returned AllocFailed called no handler and left the store as it was,
    if allocations of the index memory do not fail alone. *)
Theorem C45_split_alloc_failed_partial :
  forall cf tops lops st d q H (h : whandler H) x st' x',
  let SL := split_links cf tops lops in
  unit_env cf tops lops -> s_hist cf tops lops st d ->
  s_create cf tops lops h q st x = Val (st', x', Err AllocFailed) ->
  x' = x /\ same_links SL st st' /\ s_hist cf tops lops st' d /\
  s_data st' = s_data st /\ s_rs st' = s_rs st /\ s_is st' = s_is st /\ s_rt st' = s_rt st /\ s_it st' = s_it st /\
  s_dcap st' = s_dcap st /\ s_dlen st' = s_dlen st /\ s_ilen st' = s_ilen st.
Proof. exact L_C45_split_alloc_failed_partial. Qed.
Print Assumptions C45_split_alloc_failed_partial.

(** If the data memory grew and the index memory did not, the next creation that gets both
    succeeds and no link is lost. *)
Theorem C45_split_retry_recovers :
  forall cf tops lops st d q orc H (h : whandler H) x st1 x1 H2 (h2 : whandler H2) y st2 y2 f,
  let SL := split_links cf tops lops in
  unit_env cf tops lops -> s_hist cf tops lops st d ->
  (forall a b, orc 0%nat a b = NoIndex) ->
  s_create cf tops lops h q (s_forecast st orc) x = Val (st1, x1, Err AllocFailed) ->
  s_create cf tops lops h2 q st1 y = Val (st2, y2, Ok f) ->
  x1 = x /\ exists i, (y2, f) = h2 y nothing (mkLink i 0 0) /\ creates cf SL st st2 i.
Proof. exact L_C45_split_retry_recovers. Qed.
Print Assumptions C45_split_retry_recovers.

Theorem C45_split_retry_nonvacuous :
  exists st d st1 st2, s_hist ex_cf ref_tree_ops ref_list_ops st d /\
  s_create ex_cf ref_tree_ops ref_list_ops (fun n _ _ => (n + 1, Continue)) [] (s_forecast st no_index_once) 0 =
    Val (st1, 0, Err AllocFailed) /\
  s_create ex_cf ref_tree_ops ref_list_ops (fun _ _ l => (l, Continue)) [] st1 nothing =
    Val (st2, mkLink 7 0 0, Ok Continue).
Proof. exact L_C45_split_retry_nonvacuous. Qed.
Print Assumptions C45_split_retry_nonvacuous.

(** Between the failure and the retry every read goes through a dangling pointer. *)
Theorem C45_split_index_failure_refuted :
  exists st d st1, s_hist ex_cf ref_tree_ops ref_list_ops st d /\
  is_link ex_S st 1 0 0 /\
  s_create ex_cf ref_tree_ops ref_list_ops (fun n _ _ => (n + 1, Continue)) [] (s_forecast st no_index_once) 0 =
    Val (st1, 0, Err AllocFailed) /\
  s_get_link ex_cf st1 1 = UB /\ s_each ex_cf (fun n _ => (n + 1, Continue)) [] st1 0 = UB.
Proof. exact L_C45_split_index_failure_refuted. Qed.
Print Assumptions C45_split_index_failure_refuted.

Theorem C45_split_partial_nonvacuous :
  exists st st', s_hist ex_cf ref_tree_ops ref_list_ops st [] /\
  s_create ex_cf ref_tree_ops ref_list_ops (fun n _ _ => (n + 1, Continue)) [] st 0 = Val (st', 0, Err AllocFailed) /\
  is_link ex_S st' 6 0 0.
Proof. exact L_C45_split_partial_nonvacuous. Qed.
Print Assumptions C45_split_partial_nonvacuous.

(** The next call gives the same result on both, and both can go on. *)
Theorem C30_twins_next_call :
  forall cf tops lops us ss,
  let U := unit_links cf tops lops in let SL := split_links cf tops lops in
  unit_env cf tops lops -> twins cf tops lops us ss ->
  (forall i s t, s_oku SL ss i s t -> exists us' ss' r, d_update U i s t us = Val (us', r) /\
     d_update SL i s t ss = Val (ss', r) /\ twins cf tops lops us' ss') /\
  (forall i, s_okd SL ss i -> exists us' ss' r, d_delete U i us = Val (us', r) /\
     d_delete SL i ss = Val (ss', r) /\ twins cf tops lops us' ss') /\
  (c_iend cf + 1 + c_step cf <= c_tmax cf -> exists us' ss' r r', d_create U us = Val (us', r) /\
     d_create SL ss = Val (ss', r') /\
     (r = Err AllocFailed \/ r' = Err AllocFailed \/
      (r = r' /\ (s_okc SL ss ss' -> twins cf tops lops us' ss')))).
Proof. exact L_C30_twins_next_call. Qed.
Print Assumptions C30_twins_next_call.

(** Both answer the same to get_link, count, each and search. *)
Theorem C30_twins_same_answers :
  forall cf tops lops us ss,
  let U := unit_links cf tops lops in let SL := split_links cf tops lops in
  unit_env cf tops lops -> twins cf tops lops us ss ->
  (forall i, u_get_link cf us i = s_get_link cf ss i) /\
  (exists n, u_count cf us [] = Val n /\ s_count cf ss [] = Val n) /\
  (forall H (h : rhandler H) x, u_each cf h [] us x = s_each cf h [] ss x) /\
  (forall s t, s <> 0 -> t <> 0 -> s <> c_any cf -> t <> c_any cf ->
     (d_search cf U us s t = Val None <-> d_search cf SL ss s t = Val None) /\
     (distinct_pairs SL ss -> d_search cf U us s t = d_search cf SL ss s t)).
Proof. exact L_C30_twins_same_answers. Qed.
Print Assumptions C30_twins_same_answers.

Theorem C30_nonvacuous :
  exists us ss, twins ex_cf ref_tree_ops ref_list_ops us ss /\ distinct_pairs ex_S ss /\
  is_link ex_S ss 3 2 4 /\ no_link ex_S ss 4 /\ s_oku ex_S ss 2 3 3 /\ s_okd ex_S ss 2 /\
  c_iend ex_cf + 1 + c_step ex_cf <= c_tmax ex_cf /\ d_search ex_cf ex_S ss 2 4 = Val (Some 3) /\
  d_search ex_cf ex_U us 2 4 = Val (Some 3).
Proof. exact L_C30_nonvacuous. Qed.
Print Assumptions C30_nonvacuous.

(** Queries for a null source differ even within the discipline. *)
Theorem C30_null_source_refuted :
  exists us ss, twins ex_cf ref_tree_ops ref_list_ops us ss /\ is_link ex_S ss 1 0 2 /\
  d_search ex_cf ex_U us 0 2 = Val None /\ d_search ex_cf ex_S ss 0 2 = Val (Some 1).
Proof. exact L_C30_null_source_refuted. Qed.
Print Assumptions C30_null_source_refuted.
