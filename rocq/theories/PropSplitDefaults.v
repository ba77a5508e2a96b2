(** The default methods of the Doublets trait on the two-memory store, for every reachable state. *)
From Coq Require Import NArith List Bool Lia Permutation Sorted.
From Verif Require Import SplitDefaults Base Trees Lists Spec Iface UnitModel UnitInv UnitOps UnitLinks LinkModel SplitModel Forest
  SplitInv SplitReads SplitOps SplitWrites SplitLinks Doublets Obs DoubletsOK Hist Claims TreeImpl UnitHist SplitHist
  SplitClaims DefaultClaims.
Import ListNotations.
Open Scope N_scope.

(** * C52 *)
Theorem C52_split_search_partial :
  forall cf tops lops st d s t,
  let SL := split_links cf tops lops in
  unit_env cf tops lops -> s_hist cf tops lops st d ->
  s <> 0 -> (t = 0 -> no_hole SL st) -> s <> c_any cf -> t <> c_any cf ->
  (d_search cf SL st s t = Val None /\ forall i, ~ is_link SL st i s t) \/
  (exists i, d_search cf SL st s t = Val (Some i) /\ is_link SL st i s t).
Proof. exact L_C52_split_search_partial. Qed.
Print Assumptions C52_split_search_partial.

Theorem C52_split_search_or_partial :
  forall cf tops lops st d s t z,
  let SL := split_links cf tops lops in
  unit_env cf tops lops -> s_hist cf tops lops st d ->
  s <> 0 -> (t = 0 -> no_hole SL st) -> s <> c_any cf -> t <> c_any cf ->
  exists i, d_search_or cf SL st s t z = Val i /\
    (is_link SL st i s t \/ i = z /\ forall j, ~ is_link SL st j s t).
Proof. exact L_C52_split_search_or_partial. Qed.
Print Assumptions C52_split_search_or_partial.

Theorem C52_partial_nonvacuous :
  exists st d, s_hist ex_cf ref_tree_ops ref_list_ops st d /\
  hole ex_S st 4 /\ d_search ex_cf ex_S st 2 4 = Val (Some 3) /\ d_search ex_cf ex_S st 4 2 = Val None /\
  d_search ex_cf ex_S st 5 1 = Val (Some 5) /\ d_search_or ex_cf ex_S st 5 1 9 = Val 5 /\ d_search_or ex_cf ex_S st 4 2 9 = Val 9.
Proof. exact L_C52_partial_nonvacuous. Qed.
Print Assumptions C52_partial_nonvacuous.

(** Once there is a hole, a search for a null target from an outer source answers with a
    link that has another target; get_or_create then returns that link. *)
Theorem C52_split_search_refuted :
  exists st d, s_hist ex_cf ref_tree_ops ref_list_ops st d /\ distinct_pairs ex_S st /\
  is_link ex_S st 1 50 3 /\ d_search ex_cf ex_S st 50 0 = Val (Some 1) /\
  match d_get_or_create ex_cf ex_S 50 0 st with Val (_, r) => r = Ok 1 | _ => False end.
Proof. exact L_C52_split_search_refuted. Qed.
Print Assumptions C52_split_search_refuted.

(** * C53 *)
Theorem C53_split_create_link_partial :
  forall cf tops lops st d s t,
  let SL := split_links cf tops lops in
  unit_env cf tops lops -> c_iend cf + 1 + c_step cf <= c_tmax cf -> s_hist cf tops lops st d ->
  next_unreferred SL st -> (t = 0 -> s = 0) ->
  (range_full cf SL st /\ d_create_link SL s t st = Val (st, Err (LimitReached (c_iend cf)))) \/
  (exists st', (exists d', s_hist cf tops lops st' d') /\ same_links SL st st' /\
     d_create_link SL s t st = Val (st', Err AllocFailed)) \/
  (exists st' i, (exists d', s_hist cf tops lops st' d') /\ adds cf SL st st' i s t /\
     d_create_link SL s t st = Val (st', Ok i)).
Proof. exact L_C53_split_create_link_partial. Qed.
Print Assumptions C53_split_create_link_partial.

Theorem C53_split_create_point_partial :
  forall cf tops lops st d,
  let SL := split_links cf tops lops in
  unit_env cf tops lops -> c_iend cf + 1 + c_step cf <= c_tmax cf -> s_hist cf tops lops st d ->
  next_unreferred SL st ->
  (range_full cf SL st /\ d_create_point SL st = Val (st, Err (LimitReached (c_iend cf)))) \/
  (exists st', (exists d', s_hist cf tops lops st' d') /\ same_links SL st st' /\
     d_create_point SL st = Val (st', Err AllocFailed)) \/
  (exists st' i, (exists d', s_hist cf tops lops st' d') /\ adds cf SL st st' i i i /\
     d_create_point SL st = Val (st', Ok i)).
Proof. exact L_C53_split_create_point_partial. Qed.
Print Assumptions C53_split_create_point_partial.

Theorem C53_split_get_or_create_partial :
  forall cf tops lops st d s t,
  let SL := split_links cf tops lops in
  unit_env cf tops lops -> c_iend cf + 1 + c_step cf <= c_tmax cf -> s_hist cf tops lops st d ->
  next_unreferred SL st -> s <> 0 -> t <> 0 -> s <> c_any cf -> t <> c_any cf ->
  (exists i, is_link SL st i s t /\ d_get_or_create cf SL s t st = Val (st, Ok i)) \/
  (forall i, ~ is_link SL st i s t) /\
  (range_full cf SL st /\ d_get_or_create cf SL s t st = Val (st, Err (LimitReached (c_iend cf))) \/
   (exists st', (exists d', s_hist cf tops lops st' d') /\ same_links SL st st' /\
      d_get_or_create cf SL s t st = Val (st', Err AllocFailed)) \/
   (exists st' i, (exists d', s_hist cf tops lops st' d') /\ adds cf SL st st' i s t /\
      (distinct_pairs SL st -> distinct_pairs SL st') /\
      d_get_or_create cf SL s t st = Val (st', Ok i) /\ d_get_or_create cf SL s t st' = Val (st', Ok i))).
Proof. exact L_C53_split_get_or_create_partial. Qed.
Print Assumptions C53_split_get_or_create_partial.

Theorem C53_partial_nonvacuous :
  c_iend ex_cf + 1 + c_step ex_cf <= c_tmax ex_cf /\
  exists st d, s_hist ex_cf ref_tree_ops ref_list_ops st d /\ next_unreferred ex_S st /\ distinct_pairs ex_S st /\
  (exists st', d_get_or_create ex_cf ex_S 51 1 st = Val (st', Ok 5)) /\
  (exists st', d_get_or_create ex_cf ex_S 50 51 st = Val (st', Ok 3) /\ is_link ex_S st' 3 50 51) /\
  (exists st', d_create_point ex_S st = Val (st', Ok 3) /\ is_link ex_S st' 3 3 3 /\ is_link ex_S st' 5 51 1).
Proof. exact L_C53_partial_nonvacuous. Qed.
Print Assumptions C53_partial_nonvacuous.

(** When the next index is referred to, the new link is stored but the referring link is no
    longer found: search denies it and get_or_create makes a second link with its pair. *)
Theorem C53_split_get_or_create_refuted :
  exists st d st1 st2, s_hist ex_cf ref_tree_ops ref_list_ops st d /\ distinct_pairs ex_S st /\
  is_link ex_S st 2 3 3 /\ d_search ex_cf ex_S st 3 3 = Val (Some 2) /\
  d_get_or_create ex_cf ex_S 1 4 st = Val (st1, Ok 3) /\ is_link ex_S st1 2 3 3 /\
  d_search ex_cf ex_S st1 3 3 = Val None /\
  d_get_or_create ex_cf ex_S 3 3 st1 = Val (st2, Ok 5) /\ is_link ex_S st2 2 3 3 /\ is_link ex_S st2 5 3 3.
Proof. exact L_C53_split_get_or_create_refuted. Qed.
Print Assumptions C53_split_get_or_create_refuted.

(** * C54 *)
Theorem C54_split_usages :
  forall cf tops lops st d i,
  let SL := split_links cf tops lops in
  unit_env cf tops lops -> s_hist cf tops lops st d -> 2 * c_iend cf <= c_tmax cf -> linked SL st i ->
  exists L1 L2, d_usages cf SL st i = Val (Ok (map l_index (L1 ++ L2))) /\
    d_count_usages cf SL st i = Val (Ok (N.of_nat (length (L1 ++ L2)))) /\
    d_has_usages cf SL st i = Val (match L1 ++ L2 with [] => false | _ => true end) /\
    NoDup L1 /\ NoDup L2 /\
    (forall l, In l L1 <-> li_get SL st (l_index l) = Val (Some l) /\ l_index l <> i /\ l_source l = i) /\
    (forall l, In l L2 <-> li_get SL st (l_index l) = Val (Some l) /\ l_index l <> i /\ l_target l = i).
Proof. exact L_C54_split_usages. Qed.
Print Assumptions C54_split_usages.

Theorem C54_split_usages_missing :
  forall cf tops lops st d i,
  let SL := split_links cf tops lops in
  unit_env cf tops lops -> s_hist cf tops lops st d -> no_link SL st i ->
  d_usages cf SL st i = Val (Err (NotExists i)) /\ d_count_usages cf SL st i = Val (Err (NotExists i)) /\
  d_has_usages cf SL st i = Val false.
Proof. exact L_C54_split_usages_missing. Qed.
Print Assumptions C54_split_usages_missing.

Theorem C54_split_delete_usages_partial :
  forall cf tops lops st d i,
  let SL := split_links cf tops lops in
  unit_env cf tops lops -> s_hist cf tops lops st d -> (forall l, user SL st i l -> s_okd SL st (l_index l)) ->
  linked SL st i -> (forall x, x <> i -> ~ is_link SL st x i i) ->
  exists st' L, (exists d', s_hist cf tops lops st' d') /\ NoDup L /\
    (forall l, In l L <-> user SL st i l) /\ removed SL st st' L /\
    (forall H B (h : uwrite H B) x, d_delete_usages_with cf SL h i st x = Val (st', told h L x, Ok tt)) /\
    d_delete_usages cf SL i st = Val (st', Ok tt).
Proof. exact L_C54_split_delete_usages_partial. Qed.
Print Assumptions C54_split_delete_usages_partial.

Theorem C54_split_delete_usages_double :
  forall cf tops lops st d i x,
  let SL := split_links cf tops lops in
  unit_env cf tops lops -> s_hist cf tops lops st d -> (forall l, user SL st i l -> s_okd SL st (l_index l)) ->
  linked SL st i -> x <> i -> is_link SL st x i i ->
  exists st', d_delete_usages cf SL i st = Val (st', Err (NotExists x)).
Proof. exact L_C54_split_delete_usages_double. Qed.
Print Assumptions C54_split_delete_usages_double.

Theorem C54_nonvacuous :
  2 * c_iend ex_cf <= c_tmax ex_cf /\
  exists st d, s_hist ex_cf ref_tree_ops ref_list_ops st d /\ distinct_pairs ex_S st /\
  linked ex_S st 1 /\ no_link ex_S st 3 /\ (forall x, x <> 1 -> ~ is_link ex_S st x 1 1) /\
  d_usages ex_cf ex_S st 1 = Val (Ok [2; 5]) /\
  exists st', d_delete_usages ex_cf ex_S 1 st = Val (st', Ok tt) /\ no_link ex_S st' 2 /\ no_link ex_S st' 5 /\ is_link ex_S st' 4 2 50.
Proof. exact L_C54_nonvacuous. Qed.
Print Assumptions C54_nonvacuous.

Theorem C54_split_delete_usages_refuted :
  exists st d st', s_hist ex_cf ref_tree_ops ref_list_ops st d /\
  is_link ex_S st 3 2 2 /\ is_link ex_S st 4 2 1 /\
  d_delete_usages ex_cf ex_S 2 st = Val (st', Err (NotExists 3)) /\ is_link ex_S st' 4 2 1.
Proof. exact L_C54_split_delete_usages_refuted. Qed.
Print Assumptions C54_split_delete_usages_refuted.

(** * C55 *)
Theorem C55_split_find_single_iter :
  forall cf tops lops st d q,
  let SL := split_links cf tops lops in
  unit_env cf tops lops -> s_hist cf tops lops st d -> 2 * c_iend cf <= c_tmax cf ->
  (length q <= 3)%nat -> plain_query (c_any cf) q -> countable (c_any cf) SL st q ->
  exists L,
    (forall l, In l L -> s_get_link cf st (l_index l) = Val (Some l)) /\
    (forall H (h : rhandler H) x, s_each cf h q st x = Val (run_handler h L x)) /\
    (forall H B (h : uread H B) x, exists r, d_each_by SL h q st x = Val r /\ visit_result h x L r) /\
    d_find SL st q = Val (match L with [] => None | l :: _ => Some l end) /\
    (exists b, d_found SL st q = Val b /\ (b = true <-> L <> [])) /\
    (exists o, d_single SL st q = Val o /\ forall l, o = Some l <-> L = [l]) /\
    d_each_iter SL st q = Val L /\ s_count cf st q = Val (N.of_nat (length L)) /\
    (q = [c_any cf; c_any cf; c_any cf] -> d_iter cf SL st = Val L).
Proof. exact L_C55_split_find_single_iter. Qed.
Print Assumptions C55_split_find_single_iter.

Theorem C55_split_exist :
  forall cf tops lops st d i,
  let SL := split_links cf tops lops in
  unit_env cf tops lops -> s_hist cf tops lops st d ->
  exists b, d_exist cf SL st i = Val b /\ (b = true <-> is_external cf i = true \/ linked SL st i).
Proof. exact L_C55_split_exist. Qed.
Print Assumptions C55_split_exist.

Theorem C55_nonvacuous :
  exists st d, s_hist ex_cf ref_tree_ops ref_list_ops st d /\
  plain_query 200 [200; 1; 200] /\ countable 200 ex_S st [200; 1; 200] /\
  d_find ex_S st [200; 1; 200] = Val (Some (mkLink 1 1 1)) /\ d_single ex_S st [200; 51; 200] = Val (Some (mkLink 5 51 1)) /\
  countable 200 ex_S st [200; 51; 200] /\
  d_each_by ex_S (fun v l => (v ++ [l_index l], if l_index l =? 4 then Some 77 else None)) [] st [] = Val ([1; 2; 4], Some 77) /\
  d_exist ex_cf ex_S st 3 = Val false /\ d_exist ex_cf ex_S st 4 = Val true.
Proof. exact L_C55_nonvacuous. Qed.
Print Assumptions C55_nonvacuous.

(** * C56 *)
Theorem C56_split_delete_everything :
  forall cf tops lops st d l,
  let SL := split_links cf tops lops in
  unit_env cf tops lops -> c_iend cf + 1 + c_step cf <= c_tmax cf -> s_hist cf tops lops st d ->
  distinct_pairs SL st -> NoDup l -> (forall i, In i l <-> linked SL st i) ->
  exists st', run_deletes SL l st = Val (st', Ok tt) /\ (exists d', s_hist cf tops lops st' d') /\
    (forall i, no_link SL st' i) /\ s_count cf st' [] = Val 0 /\
    forall n, exists st2 r, run_creates SL n st' = Val (st2, r) /\
      match r with
      | Ok l => l = map N.of_nat (seq 1 n)
      | Err e => e = AllocFailed \/ (e = LimitReached (c_iend cf) /\ c_iend cf < N.of_nat n)
      end.
Proof. exact L_C56_split_delete_everything. Qed.
Print Assumptions C56_split_delete_everything.

Theorem C56_split_delete_all_partial :
  forall cf tops lops st d n,
  let SL := split_links cf tops lops in
  unit_env cf tops lops -> s_hist cf tops lops st d -> distinct_pairs SL st ->
  no_hole SL st -> s_count cf st [] = Val n ->
  exists st', (exists d', s_hist cf tops lops st' d') /\ (forall i, no_link SL st' i) /\
    forall fuel, (N.to_nat n < fuel)%nat -> d_delete_all SL fuel st = Val (st', Ok tt).
Proof. exact L_C56_split_delete_all_partial. Qed.
Print Assumptions C56_split_delete_all_partial.

Theorem C56_split_delete_all_holes :
  forall cf tops lops st d n k,
  let SL := split_links cf tops lops in
  unit_env cf tops lops -> s_hist cf tops lops st d -> distinct_pairs SL st ->
  hole SL st k -> s_count cf st [] = Val n ->
  exists st' j, no_link SL st j /\
    forall fuel, (N.to_nat n < fuel)%nat -> d_delete_all SL fuel st = Val (st', Err (NotExists j)).
Proof. exact L_C56_split_delete_all_holes. Qed.
Print Assumptions C56_split_delete_all_holes.

Theorem C56_split_delete_query_partial :
  forall cf tops lops st d q,
  let SL := split_links cf tops lops in
  unit_env cf tops lops -> s_hist cf tops lops st d -> 2 * c_iend cf <= c_tmax cf ->
  (length q <= 3)%nat -> plain_query (c_any cf) q -> countable (c_any cf) SL st q -> ~ end_query (c_any cf) q ->
  (forall l, s_get_link cf st (l_index l) = Val (Some l) -> query_match (c_any cf) q l -> s_okd SL st (l_index l)) ->
  exists st' L, (exists d', s_hist cf tops lops st' d') /\ NoDup L /\
    (forall l, In l L <-> s_get_link cf st (l_index l) = Val (Some l) /\ query_match (c_any cf) q l) /\
    removed SL st st' L /\
    forall H B (h : uwrite H B) x, d_delete_query_with SL h q st x = Val (st', told h (rev L) x, Ok tt).
Proof. exact L_C56_split_delete_query_partial. Qed.
Print Assumptions C56_split_delete_query_partial.

Theorem C56_nonvacuous :
  exists st d, s_hist ex_cf ref_tree_ops ref_list_ops st d /\ distinct_pairs ex_S st /\
  NoDup [2; 3; 1] /\ (forall i, In i [2; 3; 1] <-> linked ex_S st i) /\ no_hole ex_S st /\ s_count ex_cf st [] = Val 3 /\
  countable 200 ex_S st [200; 1; 200] /\
  (exists st', d_delete_query_with (B := unit) ex_S (fun v b _ => (v ++ [b], None)) [200; 1; 200] st []
    = Val (st', [mkLink 2 1 2; mkLink 1 1 1], Ok tt)) /\
  match run_deletes ex_S [2; 3; 1] st with
  | Val (st', Ok _) => match run_creates ex_S 4 st' with Val (_, r) => r = Ok [1; 2; 3; 4] | _ => False end
  | _ => False
  end.
Proof. exact L_C56_nonvacuous. Qed.
Print Assumptions C56_nonvacuous.

Theorem C56_split_delete_all_refuted :
  exists st d st', s_hist ex_cf ref_tree_ops ref_list_ops st d /\
  distinct_pairs ex_S st /\ d_delete_all ex_S 100 st = Val (st', Err (NotExists 3)) /\ is_link ex_S st' 1 1 1.
Proof. exact L_C56_split_delete_all_refuted. Qed.
Print Assumptions C56_split_delete_all_refuted.

Theorem C57_split_rebase_partial :
  forall cf tops lops st d old new,
  let SL := split_links cf tops lops in
  unit_env cf tops lops -> s_hist cf tops lops st d -> distinct_pairs SL st ->
  old <> new -> new <> 0 -> linked SL st old -> (forall x, x <> old -> ~ is_link SL st x old old) ->
  plain_users SL st old new ->
  (forall i j s t, moved SL st old new i s t -> moved SL st old new j s t -> (s, t) <> (0, 0) -> i = j) ->
  exists st', (exists d', s_hist cf tops lops st' d') /\ d_rebase cf SL old new st = Val (st', Ok new) /\
    (forall i s t, is_link SL st' i s t <-> moved SL st old new i s t) /\
    (forall i s t, is_link SL st' i s t -> i <> old -> s <> old /\ t <> old) /\
    exists st2, (exists d2, s_hist cf tops lops st2 d2) /\ d_rebase_and_delete cf SL old new st = Val (st2, Ok 0) /\
      no_link SL st2 old /\ (forall i s t, is_link SL st2 i s t <-> merged SL st old new i s t).
Proof. exact L_C57_split_rebase_partial. Qed.
Print Assumptions C57_split_rebase_partial.

Theorem C57_partial_nonvacuous :
  exists st d st', s_hist ex_cf ref_tree_ops ref_list_ops st d /\
  distinct_pairs ex_S st /\ linked ex_S st 1 /\ (forall x, x <> 1 -> ~ is_link ex_S st x 1 1) /\ plain_users ex_S st 1 5 /\
  (forall i j s t, moved ex_S st 1 5 i s t -> moved ex_S st 1 5 j s t -> (s, t) <> (0, 0) -> i = j) /\
  d_rebase ex_cf ex_S 1 5 st = Val (st', Ok 5) /\ is_link ex_S st' 3 5 2 /\ is_link ex_S st' 4 3 5.
Proof. exact L_C57_partial_nonvacuous. Qed.
Print Assumptions C57_partial_nonvacuous.

(** A usage that is the new link itself: afterwards it refers to itself but cannot be found,
    the usages of the new link cannot be counted (the call panics), and the queries for the
    old source still count it. *)
Theorem C57_split_rebase_refuted :
  exists st d st', s_hist ex_cf ref_tree_ops ref_list_ops st d /\
  distinct_pairs ex_S st /\ is_link ex_S st 1 1 1 /\ is_link ex_S st 2 1 2 /\
  d_rebase ex_cf ex_S 1 2 st = Val (st', Ok 2) /\ is_link ex_S st' 2 2 2 /\
  d_search ex_cf ex_S st' 2 2 = Val None /\ d_count_usages ex_cf ex_S st' 2 = Panic /\
  s_count ex_cf st' [200; 2; 200] = Val 0.
Proof. exact L_C57_split_rebase_refuted. Qed.
Print Assumptions C57_split_rebase_refuted.
