(** Properties C01-C15 of the single-memory store. *)
From Coq Require Import NArith List Bool Lia Permutation Sorted.
From Verif Require Import UnitClaims Base Trees Lists Spec Iface UnitModel UnitInv UnitOps UnitLinks
  Doublets Obs DoubletsOK Hist Claims TreeImpl UnitHist.
Import ListNotations.
Open Scope N_scope.

(** * C01 *)
Theorem C01_update_roundtrip :
  forall cf tops lops st d q ch i s t,
  let U := unit_links cf tops lops in
  unit_env cf tops lops -> u_hist cf tops lops st d ->
  linked U st i -> separable U st i ->
  qget q 0 = Val i -> qget ch 1 = Val s -> qget ch 2 = Val t ->
  exists st' before, u_hist cf tops lops st' d /\
    calls_once (fun H h x => u_update cf tops h q ch st x) st' before (mkLink i s t) /\
    is_link U st' i s t /\ frame U st st' i.
Proof. exact L_C01_update_roundtrip. Qed.
Print Assumptions C01_update_roundtrip.

Theorem C01_nonvacuous :
  exists st d,
  u_hist ex_cf ref_tree_ops ref_list_ops st d /\ linked ex_U st 3 /\ separable ex_U st 3 /\
  is_link ex_U st 1 1 1 /\ is_link ex_U st 2 1 2 /\ is_link ex_U st 4 1 2.
Proof. exact L_C01_nonvacuous. Qed.
Print Assumptions C01_nonvacuous.

(** * C02 *)
Theorem C02_count_and_each_all :
  forall cf tops lops st d q,
  let U := unit_links cf tops lops in let any := c_any cf in
  unit_env cf tops lops -> u_hist cf tops lops st d ->
  q = [] \/ q = [any] \/ (q = [any; any] /\ 2 * c_iend cf <= c_tmax cf) \/ q = [any; any; any] ->
  exists L, all_links U st L /\ u_count cf st q = Val (N.of_nat (length L)) /\
    forall H (h : rhandler H) x, u_each cf h q st x = Val (run_handler h L x).
Proof. exact L_C02_count_and_each_all. Qed.
Print Assumptions C02_count_and_each_all.

Theorem C02_nonvacuous :
  exists st d,
  u_hist ex_cf ref_tree_ops ref_list_ops st d /\
  all_links ex_U st [mkLink 2 1 2; mkLink 3 2 1] /\ u_count ex_cf st [] = Val 2.
Proof. exact L_C02_nonvacuous. Qed.
Print Assumptions C02_nonvacuous.

(** * C03 *)
Theorem C03_each_visits_matches :
  forall cf tops lops st d q,
  let U := unit_links cf tops lops in
  unit_env cf tops lops -> u_hist cf tops lops st d ->
  (length q <= 3)%nat -> (length q = 2%nat -> 2 * c_iend cf <= c_tmax cf) ->
  ~ null_query (c_any cf) q -> ~ end_query (c_any cf) q ->
  (pair_query (c_any cf) q -> one_match (c_any cf) U st q) ->
  exists L, NoDup L /\
    (forall l, In l L <-> u_get_link cf st (l_index l) = Val (Some l) /\ query_match (c_any cf) q l) /\
    forall H (h : rhandler H) x, u_each cf h q st x = Val (run_handler h L x).
Proof. exact L_C03_each_visits_matches. Qed.
Print Assumptions C03_each_visits_matches.

Theorem C03_nonvacuous :
  exists st d,
  u_hist ex_cf ref_tree_ops ref_list_ops st d /\ distinct_pairs ex_U st /\
  ~ null_query 200 [200; 1; 200] /\ ~ end_query 200 [200; 1; 200] /\
  u_each ex_cf (fun v l => (v ++ [l_index l], Continue)) [200; 1; 200] st [] = Val ([1; 2], Continue).
Proof. exact L_C03_nonvacuous. Qed.
Print Assumptions C03_nonvacuous.

(** A query for a pair shows one of the links with that pair, also where several have it. *)
Theorem C03_each_visits_one_of_pair :
  forall cf tops lops st d s t,
  let U := unit_links cf tops lops in
  unit_env cf tops lops -> u_hist cf tops lops st d -> s <> 0 -> s <> c_any cf -> t <> c_any cf ->
  (forall i, ~ is_link U st i s t) /\
    (forall H (h : rhandler H) x, u_each cf h [c_any cf; s; t] st x = Val (x, Continue)) \/
  exists i, is_link U st i s t /\
    forall H (h : rhandler H) x, u_each cf h [c_any cf; s; t] st x = Val (h x (mkLink i s t)).
Proof. exact L_C03_each_visits_one_of_pair. Qed.
Print Assumptions C03_each_visits_one_of_pair.

Theorem C03_one_of_pair_nonvacuous :
  exists st d,
  u_hist ex_cf ref_tree_ops ref_list_ops st d /\ is_link ex_U st 2 1 2 /\ is_link ex_U st 4 1 2 /\
  (exists i, u_each ex_cf (fun v l => (v ++ [l], Continue)) [200; 1; 2] st [] = Val ([mkLink i 1 2], Continue)) /\
  u_each ex_cf (fun v l => (v ++ [l], Continue)) [200; 2; 2] st [] = Val ([], Continue).
Proof. exact L_C03_one_of_pair_nonvacuous. Qed.
Print Assumptions C03_one_of_pair_nonvacuous.

Theorem C03_each_visits_either_end :
  forall cf tops lops st d v,
  let U := unit_links cf tops lops in
  unit_env cf tops lops -> u_hist cf tops lops st d -> 2 * c_iend cf <= c_tmax cf ->
  v <> 0 -> v <> c_any cf ->
  exists L1 L2, NoDup L1 /\ NoDup L2 /\
    (forall l, In l L1 <-> u_get_link cf st (l_index l) = Val (Some l) /\ l_source l = v) /\
    (forall l, In l L2 <-> u_get_link cf st (l_index l) = Val (Some l) /\ l_target l = v) /\
    forall H (h : rhandler H) x, u_each cf h [c_any cf; v] st x = Val (run_handler h (L1 ++ L2) x).
Proof. exact L_C03_each_visits_either_end. Qed.
Print Assumptions C03_each_visits_either_end.

Theorem C03_either_end_nonvacuous :
  exists st d,
  u_hist ex_cf ref_tree_ops ref_list_ops st d /\ 2 * c_iend ex_cf <= c_tmax ex_cf /\
  u_each ex_cf (fun v l => (v ++ [l_index l], Continue)) [200; 1] st [] = Val ([1; 2; 1; 3], Continue).
Proof. exact L_C03_either_end_nonvacuous. Qed.
Print Assumptions C03_either_end_nonvacuous.

(** * C04 *)
Theorem C04_count_equals_visits :
  forall cf tops lops st d q,
  unit_env cf tops lops -> u_hist cf tops lops st d ->
  (length q <= 3)%nat -> (length q = 2%nat -> 2 * c_iend cf <= c_tmax cf) ->
  exists n, u_count cf st q = Val n /\
    u_each cf (fun k _ => (k + 1, Continue)) q st 0 = Val (n, Continue).
Proof. exact L_C04_count_equals_visits. Qed.
Print Assumptions C04_count_equals_visits.

Theorem C04_nonvacuous :
  exists st d,
  u_hist ex_cf ref_tree_ops ref_list_ops st d /\ u_count ex_cf st [200; 1] = Val 4 /\
  u_count ex_cf st [200; 200; 2] = Val 1 /\ u_count ex_cf st [3; 2] = Val 1.
Proof. exact L_C04_nonvacuous. Qed.
Print Assumptions C04_nonvacuous.

(** * C05 *)
Theorem C05_search_iff :
  forall cf tops lops st d s t,
  let U := unit_links cf tops lops in
  unit_env cf tops lops -> u_hist cf tops lops st d ->
  s <> 0 -> s <> c_any cf -> t <> c_any cf ->
  (d_search cf U st s t = Val None /\ forall i, ~ is_link U st i s t) \/
  (exists i, d_search cf U st s t = Val (Some i) /\ is_link U st i s t).
Proof. exact L_C05_search_iff. Qed.
Print Assumptions C05_search_iff.

Theorem C05_search_or :
  forall cf tops lops st d s t z,
  let U := unit_links cf tops lops in
  unit_env cf tops lops -> u_hist cf tops lops st d ->
  s <> 0 -> s <> c_any cf -> t <> c_any cf ->
  exists i, d_search_or cf U st s t z = Val i /\
    (is_link U st i s t \/ i = z /\ forall j, ~ is_link U st j s t).
Proof. exact L_C05_search_or. Qed.
Print Assumptions C05_search_or.

Theorem C05_nonvacuous :
  exists st d,
  u_hist ex_cf ref_tree_ops ref_list_ops st d /\ d_search ex_cf ex_U st 2 1 = Val (Some 3) /\
  d_search ex_cf ex_U st 2 2 = Val None /\ d_search_or ex_cf ex_U st 2 1 9 = Val 3 /\ d_search_or ex_cf ex_U st 2 2 9 = Val 9.
Proof. exact L_C05_nonvacuous. Qed.
Print Assumptions C05_nonvacuous.

(** * C06, C07, C15 *)
Theorem C06_create_fresh :
  forall cf tops lops st d H (h : whandler H) q x st' x' f,
  let U := unit_links cf tops lops in
  unit_env cf tops lops -> u_hist cf tops lops st d ->
  u_create cf lops h q st x = Val (st', x', Ok f) ->
  u_hist cf tops lops st' d /\
  exists i, creates cf U st st' i /\
    calls_once (fun H h x => u_create cf lops h q st x) st' nothing (mkLink i 0 0).
Proof. exact L_C06_create_fresh. Qed.
Print Assumptions C06_create_fresh.

Theorem C06_nonvacuous :
  exists st d st',
  u_hist ex_cf ref_tree_ops ref_list_ops st d /\ is_link ex_U st 2 1 2 /\
  u_create ex_cf ref_list_ops (fun _ _ l => (l, Continue)) [] st nothing = Val (st', mkLink 1 0 0, Ok Continue).
Proof. exact L_C06_nonvacuous. Qed.
Print Assumptions C06_nonvacuous.

Theorem C07_index_policy :
  forall cf tops lops st d H (h : whandler H) q x st' x' f i,
  let U := unit_links cf tops lops in
  unit_env cf tops lops -> u_hist cf tops lops st d ->
  u_create cf lops h q st x = Val (st', x', Ok f) -> no_link U st i -> linked U st' i ->
  (exists later earlier, d = later ++ i :: earlier /\ hole U st i /\ (forall k, In k later -> ~ hole U st k)) \/
  ((forall k, ~ hole U st k) /\ (forall k, linked U st k -> k < i) /\ (i = 1 \/ linked U st (i - 1))).
Proof. exact L_C07_index_policy. Qed.
Print Assumptions C07_index_policy.

Theorem C07_nonvacuous :
  exists st d,
  u_hist ex_cf ref_tree_ops ref_list_ops st d /\
  (exists st', d_create ex_U st = Val (st', Ok 3)) /\ hole ex_U st 3 /\ hole ex_U st 1.
Proof. exact L_C07_nonvacuous. Qed.
Print Assumptions C07_nonvacuous.

(** * C08 *)
Theorem C08_delete_removes_one :
  forall cf tops lops st d q i s t,
  let U := unit_links cf tops lops in
  unit_env cf tops lops -> u_hist cf tops lops st d ->
  is_link U st i s t -> separable U st i -> qget q 0 = Val i ->
  exists st', u_hist cf tops lops st' (i :: d) /\
    calls_once (fun H h x => u_delete cf tops lops h q st x) st' (mkLink i s t) nothing /\
    no_link U st' i /\ frame U st st' i /\
    exists n, u_count cf st [] = Val (n + 1) /\ u_count cf st' [] = Val n.
Proof. exact L_C08_delete_removes_one. Qed.
Print Assumptions C08_delete_removes_one.

Theorem C08_nonvacuous :
  exists st d,
  u_hist ex_cf ref_tree_ops ref_list_ops st d /\ is_link ex_U st 1 1 1 /\ separable ex_U st 1 /\
  is_link ex_U st 2 1 2 /\ is_link ex_U st 3 2 1 /\ is_link ex_U st 4 1 2.
Proof. exact L_C08_nonvacuous. Qed.
Print Assumptions C08_nonvacuous.

(** * C09 *)
Theorem C09_missing_links :
  forall cf tops lops st d q ch i s t,
  let U := unit_links cf tops lops in
  unit_env cf tops lops -> u_hist cf tops lops st d -> no_link U st i ->
  qget q 0 = Val i -> qget ch 1 = Val s -> qget ch 2 = Val t ->
  fails_with (fun H h x => u_update cf tops h q ch st x) st (NotExists i) /\
  fails_with (fun H h x => u_delete cf tops lops h q st x) st (NotExists i).
Proof. exact L_C09_missing_links. Qed.
Print Assumptions C09_missing_links.

Theorem C09_nonvacuous :
  exists st d,
  u_hist ex_cf ref_tree_ops ref_list_ops st d /\ no_link ex_U st 1 /\ no_link ex_U st 7 /\ is_link ex_U st 3 2 1.
Proof. exact L_C09_nonvacuous. Qed.
Print Assumptions C09_nonvacuous.

(** * C10 *)
Theorem C10_limit_reached_iff :
  forall cf tops lops st d H (h : whandler H) q x,
  let U := unit_links cf tops lops in
  unit_env cf tops lops -> u_hist cf tops lops st d ->
  (range_full cf U st <-> exists st' x' n, u_create cf lops h q st x = Val (st', x', Err (LimitReached n))) /\
  (range_full cf U st -> u_create cf lops h q st x = Val (st, x, Err (LimitReached (c_iend cf)))).
Proof. exact L_C10_limit_reached_iff. Qed.
Print Assumptions C10_limit_reached_iff.

Theorem C10_nonvacuous :
  unit_env ex_cf2 ref_tree_ops ref_list_ops /\
  exists st, u_hist ex_cf2 ref_tree_ops ref_list_ops st [] /\
    u_create ex_cf2 ref_list_ops cont [] st tt = Val (st, tt, Err (LimitReached 2)).
Proof. exact L_C10_nonvacuous. Qed.
Print Assumptions C10_nonvacuous.

(** * C11 *)
Theorem C11_no_panic :
  forall cf tops lops st d,
  let U := unit_links cf tops lops in
  unit_env cf tops lops -> cfg_room cf -> u_hist cf tops lops st d ->
  (forall i, returns (u_get_link cf st i)) /\
  (forall q, (length q <= 3)%nat -> returns (u_count cf st q)) /\
  (forall H (h : rhandler H) q x, (length q <= 3)%nat -> returns (u_each cf h q st x)) /\
  (forall H (h : whandler H) q x, returns (u_create cf lops h q st x)) /\
  (forall H (h : whandler H) q ch x i s t, u_okc cf tops lops st i ->
     qget q 0 = Val i -> qget ch 1 = Val s -> qget ch 2 = Val t -> returns (u_update cf tops h q ch st x)) /\
  (forall H (h : whandler H) q x i, u_okc cf tops lops st i ->
     qget q 0 = Val i -> returns (u_delete cf tops lops h q st x)).
Proof. exact L_C11_no_panic. Qed.
Print Assumptions C11_no_panic.

Theorem C11_nonvacuous :
  cfg_room ex_cf /\ exists st d, u_hist ex_cf ref_tree_ops ref_list_ops st d /\
  u_okc ex_cf ref_tree_ops ref_list_ops st 2 /\ is_link ex_U st 2 1 2.
Proof. exact L_C11_nonvacuous. Qed.
Print Assumptions C11_nonvacuous.

(** * C12 *)
Theorem C12_delete_everything :
  forall cf tops lops st d l,
  let U := unit_links cf tops lops in
  unit_env cf tops lops -> cfg_room cf -> u_hist cf tops lops st d ->
  distinct_pairs U st -> NoDup l -> (forall i, In i l <-> linked U st i) ->
  exists st', run_deletes U l st = Val (st', Ok tt) /\ (exists d', u_hist cf tops lops st' d') /\
    (forall i, no_link U st' i) /\ u_count cf st' [] = Val 0 /\
    forall n, exists st2 r, run_creates U n st' = Val (st2, r) /\
      match r with
      | Ok l => l = map N.of_nat (seq 1 n)
      | Err e => e = AllocFailed \/ (e = LimitReached (c_iend cf) /\ c_iend cf < N.of_nat n)
      end.
Proof. exact L_C12_delete_everything. Qed.
Print Assumptions C12_delete_everything.

Theorem C12_nonvacuous :
  exists st d,
  u_hist ex_cf ref_tree_ops ref_list_ops st d /\ distinct_pairs ex_U st /\ NoDup [2; 3; 1] /\
  (forall i, In i [2; 3; 1] <-> linked ex_U st i) /\
  match run_deletes ex_U [2; 3; 1] st with
  | Val (st', Ok _) => match run_creates ex_U 4 st' with Val (_, r) => r = Ok [1; 2; 3; 4] | _ => False end
  | _ => False
  end.
Proof. exact L_C12_nonvacuous. Qed.
Print Assumptions C12_nonvacuous.

(** * C13 *)
Theorem C13_reopen_partial :
  forall cf tops lops st d orc,
  let U := unit_links cf tops lops in
  unit_env cf tops lops -> u_hist cf tops lops st d ->
  (forall i, linked U st i -> i < c_step cf) -> c_step cf - 1 <= c_tmax cf ->
  orc 0%nat (c_page cf) = true -> orc 1%nat (c_step cf) = true ->
  exists st', u_open cf (u_persist st orc) = Val (Ok st') /\ u_hist cf tops lops st' d /\
    same_links U st st' /\ u_count cf st' [] = u_count cf st [].
Proof. exact L_C13_reopen_partial. Qed.
Print Assumptions C13_reopen_partial.

Theorem C13_partial_nonvacuous :
  exists st d, u_hist ex_cf ref_tree_ops ref_list_ops st d /\
  (forall i, linked ex_U st i -> i < c_step ex_cf) /\ hole ex_U st 1 /\ is_link ex_U st 3 2 1 /\
  c_step ex_cf - 1 <= c_tmax ex_cf.
Proof. exact L_C13_partial_nonvacuous. Qed.
Print Assumptions C13_partial_nonvacuous.

Theorem C13_reopen_refuted :
  exists st d st',
  u_hist ex_cf ref_tree_ops ref_list_ops st d /\ is_link ex_U st 8 0 0 /\
  u_open ex_cf (u_persist st (fun _ _ => true)) = Val (Ok st') /\
  u_get_link ex_cf st' 8 = UB /\
  u_each ex_cf (fun n _ => (n + 1, Continue)) [] st' 0 = UB.
Proof. exact L_C13_reopen_refuted. Qed.
Print Assumptions C13_reopen_refuted.

(** This is so for every store whose highest link has reached the step size. *)
Theorem C13_reopen_always_lost :
  forall cf tops lops st d top orc st',
  let U := unit_links cf tops lops in
  unit_env cf tops lops -> u_hist cf tops lops st d ->
  linked U st top -> (forall i, linked U st i -> i <= top) -> c_step cf <= top ->
  u_open cf (u_persist st orc) = Val (Ok st') ->
  u_get_link cf st' top = UB /\
  forall H (h : rhandler H) x, (forall y l, snd (h y l) = Continue) -> u_each cf h [] st' x = UB.
Proof. exact L_C13_reopen_always_lost. Qed.
Print Assumptions C13_reopen_always_lost.

(** * C14 *)
Theorem C14_update_before_is_new :
  forall cf tops lops st d q ch i s t,
  let U := unit_links cf tops lops in
  unit_env cf tops lops -> u_hist cf tops lops st d ->
  linked U st i -> separable U st i ->
  qget q 0 = Val i -> qget ch 1 = Val s -> qget ch 2 = Val t ->
  exists st', calls_once (fun H h x => u_update cf tops h q ch st x) st' (mkLink i s t) (mkLink i s t).
Proof. exact L_C14_update_before_is_new. Qed.
Print Assumptions C14_update_before_is_new.

Theorem C14_update_before_refuted :
  exists st d st' before,
  u_hist ex_cf ref_tree_ops ref_list_ops st d /\ is_link ex_U st 3 2 1 /\
  u_update ex_cf ref_tree_ops (fun _ b _ => (b, Continue)) [3] [3; 2; 2] st nothing
    = Val (st', before, Ok Continue) /\ before <> mkLink 3 2 1.
Proof. exact L_C14_update_before_refuted. Qed.
Print Assumptions C14_update_before_refuted.

(** * C15 *)
Theorem C15_handlers_told_the_truth :
  forall cf tops lops st d H (h : whandler H) q x st' x' r,
  let U := unit_links cf tops lops in
  unit_env cf tops lops -> u_hist cf tops lops st d ->
  (u_create cf lops h q st x = Val (st', x', r) ->
     match r with
     | Ok f => exists i, no_link U st i /\ is_link U st' i 0 0 /\ (x', f) = h x nothing (mkLink i 0 0)
     | Err _ => x' = x
     end) /\
  (forall i, qget q 0 = Val i -> u_okc cf tops lops st i -> u_delete cf tops lops h q st x = Val (st', x', r) ->
     match r with
     | Ok f => exists s t, is_link U st i s t /\ no_link U st' i /\ (x', f) = h x (mkLink i s t) nothing
     | Err _ => x' = x
     end).
Proof. exact L_C15_handlers_told_the_truth. Qed.
Print Assumptions C15_handlers_told_the_truth.

Theorem C15_nonvacuous :
  exists st d, u_hist ex_cf ref_tree_ops ref_list_ops st d /\
  match u_delete ex_cf ref_tree_ops ref_list_ops (fun l b a => (l ++ [(b, a)], Break)) [2] st [] with
  | Val (_, x', r) => x' = [(mkLink 2 1 2, nothing)] /\ r = Ok Break | _ => False end.
Proof. exact L_C15_nonvacuous. Qed.
Print Assumptions C15_nonvacuous.
