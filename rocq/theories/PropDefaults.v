(** Properties of the default methods over the single-memory store, and of its limits. *)
From Coq Require Import NArith List Bool Lia Permutation Sorted.
From Verif Require Import DefaultClaims Base Trees Lists Spec Iface UnitModel UnitInv UnitOps UnitLinks
  Doublets Obs DoubletsOK Hist Claims TreeImpl UnitHist UnitClaims.
Import ListNotations.
Open Scope N_scope.

(** * C16 *)
Theorem C16_delete_all_partial :
  forall cf tops lops st d n,
  let U := unit_links cf tops lops in
  unit_env cf tops lops -> u_hist cf tops lops st d -> distinct_pairs U st ->
  (forall k, ~ hole U st k) -> u_count cf st [] = Val n ->
  exists st', (exists d', u_hist cf tops lops st' d') /\ (forall i, no_link U st' i) /\
    forall fuel, (N.to_nat n < fuel)%nat -> d_delete_all U fuel st = Val (st', Ok tt).
Proof. exact L_C16_delete_all_partial. Qed.
Print Assumptions C16_delete_all_partial.

Theorem C16_partial_nonvacuous :
  exists st d, u_hist ex_cf ref_tree_ops ref_list_ops st d /\
  distinct_pairs ex_U st /\ (forall k, ~ hole ex_U st k) /\ u_count ex_cf st [] = Val 3.
Proof. exact L_C16_partial_nonvacuous. Qed.
Print Assumptions C16_partial_nonvacuous.

(** With a hole, delete_all always fails. *)
Theorem C16_delete_all_holes :
  forall cf tops lops st d n k,
  let U := unit_links cf tops lops in
  unit_env cf tops lops -> u_hist cf tops lops st d -> distinct_pairs U st ->
  hole U st k -> u_count cf st [] = Val n ->
  exists st' j, no_link U st j /\
    forall fuel, (N.to_nat n < fuel)%nat -> d_delete_all U fuel st = Val (st', Err (NotExists j)).
Proof. exact L_C16_delete_all_holes. Qed.
Print Assumptions C16_delete_all_holes.

Theorem C16_delete_all_refuted :
  exists st d st', u_hist ex_cf ref_tree_ops ref_list_ops st d /\
  distinct_pairs ex_U st /\ d_delete_all ex_U 100 st = Val (st', Err (NotExists 1)) /\ is_link ex_U st' 3 2 1.
Proof. exact L_C16_delete_all_refuted. Qed.
Print Assumptions C16_delete_all_refuted.

(** * C17 *)
Theorem C17_delete_usages_partial :
  forall cf tops lops st d i,
  let U := unit_links cf tops lops in
  unit_env cf tops lops -> u_hist cf tops lops st d -> (forall l, user U st i l -> separable U st (l_index l)) ->
  i <> 0 -> i <> c_any cf -> (forall x, x <> i -> ~ is_link U st x i i) ->
  exists st' L, (exists d', u_hist cf tops lops st' d') /\ NoDup L /\
    (forall l, In l L <-> user U st i l) /\ removed U st st' L /\
    (forall H B (h : uwrite H B) x, d_delete_usages_with cf U h i st x = Val (st', told h L x, Ok tt)) /\
    d_delete_usages cf U i st = Val (st', Ok tt).
Proof. exact L_C17_delete_usages_partial. Qed.
Print Assumptions C17_delete_usages_partial.

Theorem C17_partial_nonvacuous :
  exists st d, u_hist ex_cf ref_tree_ops ref_list_ops st d /\
  (forall l, user ex_U st 1 l -> separable ex_U st (l_index l)) /\ (forall x, x <> 1 -> ~ is_link ex_U st x 1 1) /\
  user ex_U st 1 (mkLink 3 1 2) /\ user ex_U st 1 (mkLink 5 3 1).
Proof. exact L_C17_partial_nonvacuous. Qed.
Print Assumptions C17_partial_nonvacuous.

(** A link with [i] at both ends is deleted twice, so the call fails. *)
Theorem C17_delete_usages_double :
  forall cf tops lops st d i x,
  let U := unit_links cf tops lops in
  unit_env cf tops lops -> u_hist cf tops lops st d -> (forall l, user U st i l -> separable U st (l_index l)) ->
  i <> 0 -> i <> c_any cf -> x <> i -> is_link U st x i i ->
  exists st', d_delete_usages cf U i st = Val (st', Err (NotExists x)).
Proof. exact L_C17_delete_usages_double. Qed.
Print Assumptions C17_delete_usages_double.

Theorem C17_delete_usages_refuted :
  exists st d st', u_hist ex_cf ref_tree_ops ref_list_ops st d /\
  is_link ex_U st 2 1 1 /\ is_link ex_U st 3 1 2 /\
  d_delete_usages ex_cf ex_U 1 st = Val (st', Err (NotExists 2)) /\ is_link ex_U st' 3 1 2.
Proof. exact L_C17_delete_usages_refuted. Qed.
Print Assumptions C17_delete_usages_refuted.

(** * C18 *)
Theorem C18_rebase_partial :
  forall cf tops lops st d old new,
  let U := unit_links cf tops lops in
  unit_env cf tops lops -> u_hist cf tops lops st d -> distinct_pairs U st ->
  old <> new -> linked U st old -> (forall x, x <> old -> ~ is_link U st x old old) ->
  (forall i j s t, moved U st old new i s t -> moved U st old new j s t -> (s, t) <> (0, 0) -> i = j) ->
  exists st', (exists d', u_hist cf tops lops st' d') /\ d_rebase cf U old new st = Val (st', Ok new) /\
    (forall i s t, is_link U st' i s t <-> moved U st old new i s t) /\
    (forall i s t, is_link U st' i s t -> i <> old -> s <> old /\ t <> old).
Proof. exact L_C18_rebase_partial. Qed.
Print Assumptions C18_rebase_partial.

Theorem C18_partial_nonvacuous :
  exists st d st', u_hist ex_cf ref_tree_ops ref_list_ops st d /\
  distinct_pairs ex_U st /\ linked ex_U st 1 /\ (forall x, x <> 1 -> ~ is_link ex_U st x 1 1) /\
  (forall i j s t, moved ex_U st 1 5 i s t -> moved ex_U st 1 5 j s t -> (s, t) <> (0, 0) -> i = j) /\
  d_rebase ex_cf ex_U 1 5 st = Val (st', Ok 5) /\ is_link ex_U st' 3 5 2 /\ is_link ex_U st' 4 3 5.
Proof. exact L_C18_partial_nonvacuous. Qed.
Print Assumptions C18_partial_nonvacuous.

(** A usage with [old] at both ends keeps [old] as its source. *)
Theorem C18_rebase_refuted :
  exists st d st', u_hist ex_cf ref_tree_ops ref_list_ops st d /\
  distinct_pairs ex_U st /\ is_link ex_U st 2 1 1 /\
  d_rebase ex_cf ex_U 1 3 st = Val (st', Ok 3) /\ is_link ex_U st' 2 1 3.
Proof. exact L_C18_rebase_refuted. Qed.
Print Assumptions C18_rebase_refuted.

Theorem C19_fuse_passes_on :
  forall H B (h : uwrite H B) l x,
  call_all (fuse_call h) l (x, false) = (call_all h l x, false) /\
  forall b a, let y := call_all h l x in
    fst (fuse_call h (y, false) b a) = (fst (h y b a), false) /\
    flow_of (snd (fuse_call h (y, false) b a)) = flow_of (snd (h y b a)) /\
    fuse_once h y b a = (fst (h y b a), flow_of (snd (h y b a))).
Proof. exact L_C19_fuse_passes_on. Qed.
Print Assumptions C19_fuse_passes_on.

Theorem C19_fuse_refuted :
  exists st d, u_hist ex_cf ref_tree_ops ref_list_ops st d /\
  distinct_pairs ex_U st /\
  (exists st', d_delete_query_with ex_U stubborn [200; 200; 1] st [] =
     Val (st', [mkLink 3 2 1; mkLink 1 1 1], Ok tt)) /\
  (exists st', d_delete_usages_with ex_cf ex_U stubborn 1 st [] =
     Val (st', [mkLink 3 2 1; mkLink 2 1 2], Ok tt)) /\
  (exists st', d_rebase_with ex_cf ex_U stubborn 1 4 st [] =
     Val (st', [mkLink 2 4 2; mkLink 3 2 4], Ok tt)) /\
  (exists st', d_create_link_with ex_U stubborn 2 2 st [] =
     Val (st', [nothing; mkLink 4 2 2], Ok Break)).
Proof. exact L_C19_fuse_refuted. Qed.
Print Assumptions C19_fuse_refuted.

(** * C20 *)
Theorem C20_usages :
  forall cf tops lops st d i,
  let U := unit_links cf tops lops in
  unit_env cf tops lops -> u_hist cf tops lops st d -> 2 * c_iend cf <= c_tmax cf -> linked U st i ->
  exists L1 L2, d_usages cf U st i = Val (Ok (map l_index (L1 ++ L2))) /\
    d_count_usages cf U st i = Val (Ok (N.of_nat (length (L1 ++ L2)))) /\
    d_has_usages cf U st i = Val (match L1 ++ L2 with [] => false | _ => true end) /\
    NoDup L1 /\ NoDup L2 /\
    (forall l, In l L1 <-> li_get U st (l_index l) = Val (Some l) /\ l_index l <> i /\ l_source l = i) /\
    (forall l, In l L2 <-> li_get U st (l_index l) = Val (Some l) /\ l_index l <> i /\ l_target l = i).
Proof. exact L_C20_usages. Qed.
Print Assumptions C20_usages.

Theorem C20_usages_missing :
  forall cf tops lops st d i,
  let U := unit_links cf tops lops in
  unit_env cf tops lops -> u_hist cf tops lops st d -> no_link U st i ->
  d_usages cf U st i = Val (Err (NotExists i)) /\ d_count_usages cf U st i = Val (Err (NotExists i)) /\
  d_has_usages cf U st i = Val false.
Proof. exact L_C20_usages_missing. Qed.
Print Assumptions C20_usages_missing.

Theorem C20_nonvacuous :
  exists st d, u_hist ex_cf ref_tree_ops ref_list_ops st d /\
  linked ex_U st 1 /\ no_link ex_U st 9 /\ d_usages ex_cf ex_U st 1 = Val (Ok [3; 4; 5]).
Proof. exact L_C20_nonvacuous. Qed.
Print Assumptions C20_nonvacuous.

(** * C21 *)
Theorem C21_get_or_create :
  forall cf tops lops st d s t,
  let U := unit_links cf tops lops in
  unit_env cf tops lops -> cfg_room cf -> u_hist cf tops lops st d ->
  s <> 0 -> s <> c_any cf -> t <> c_any cf ->
  (exists i, is_link U st i s t /\ d_get_or_create cf U s t st = Val (st, Ok i)) \/
  (forall i, ~ is_link U st i s t) /\
  (range_full cf U st /\ d_get_or_create cf U s t st = Val (st, Err (LimitReached (c_iend cf))) \/
   (exists st', (exists d', u_hist cf tops lops st' d') /\ same_links U st st' /\
      d_get_or_create cf U s t st = Val (st', Err AllocFailed)) \/
   (exists st' i, (exists d', u_hist cf tops lops st' d') /\ adds cf U st st' i s t /\
      (distinct_pairs U st -> distinct_pairs U st') /\
      d_get_or_create cf U s t st = Val (st', Ok i) /\ d_get_or_create cf U s t st' = Val (st', Ok i))).
Proof. exact L_C21_get_or_create. Qed.
Print Assumptions C21_get_or_create.

Theorem C21_nonvacuous :
  exists st d st', u_hist ex_cf ref_tree_ops ref_list_ops st d /\ distinct_pairs ex_U st /\
  d_get_or_create ex_cf ex_U 2 1 st = Val (st, Ok 3) /\ d_get_or_create ex_cf ex_U 2 2 st = Val (st', Ok 1) /\
  is_link ex_U st' 1 2 2.
Proof. exact L_C21_nonvacuous. Qed.
Print Assumptions C21_nonvacuous.

(** * C22 *)
Theorem C22_create_link :
  forall cf tops lops st d s t,
  let U := unit_links cf tops lops in
  unit_env cf tops lops -> cfg_room cf -> u_hist cf tops lops st d ->
  (range_full cf U st /\ d_create_link U s t st = Val (st, Err (LimitReached (c_iend cf)))) \/
  (exists st', (exists d', u_hist cf tops lops st' d') /\ same_links U st st' /\
     d_create_link U s t st = Val (st', Err AllocFailed)) \/
  (exists st' i, (exists d', u_hist cf tops lops st' d') /\ adds cf U st st' i s t /\
     d_create_link U s t st = Val (st', Ok i)).
Proof. exact L_C22_create_link. Qed.
Print Assumptions C22_create_link.

Theorem C22_create_point :
  forall cf tops lops st d,
  let U := unit_links cf tops lops in
  unit_env cf tops lops -> cfg_room cf -> u_hist cf tops lops st d ->
  (range_full cf U st /\ d_create_point U st = Val (st, Err (LimitReached (c_iend cf)))) \/
  (exists st', (exists d', u_hist cf tops lops st' d') /\ same_links U st st' /\
     d_create_point U st = Val (st', Err AllocFailed)) \/
  (exists st' i, (exists d', u_hist cf tops lops st' d') /\ adds cf U st st' i i i /\
     d_create_point U st = Val (st', Ok i)).
Proof. exact L_C22_create_point. Qed.
Print Assumptions C22_create_point.

Theorem C22_nonvacuous :
  exists st d st1 st2, u_hist ex_cf ref_tree_ops ref_list_ops st d /\
  d_create_link ex_U 3 3 st = Val (st1, Ok 1) /\ is_link ex_U st1 1 3 3 /\
  d_create_point ex_U st = Val (st2, Ok 1) /\ is_link ex_U st2 1 1 1 /\ is_link ex_U st2 3 2 1.
Proof. exact L_C22_nonvacuous. Qed.
Print Assumptions C22_nonvacuous.

Theorem C23_break_stops :
  forall cf tops lops st d q,
  let U := unit_links cf tops lops in
  unit_env cf tops lops -> u_hist cf tops lops st d ->
  (length q <= 3)%nat -> (length q = 2%nat -> 2 * c_iend cf <= c_tmax cf) ->
  exists L, u_count cf st q = Val (N.of_nat (length L)) /\
    (forall l, In l L -> u_get_link cf st (l_index l) = Val (Some l)) /\
    forall H B (h : uread H B) x, exists r, d_each_by U h q st x = Val r /\ visit_result h x L r.
Proof. exact L_C23_break_stops. Qed.
Print Assumptions C23_break_stops.

Theorem C23_nonvacuous :
  exists st d, u_hist ex_cf ref_tree_ops ref_list_ops st d /\
  d_each_by ex_U (fun v l => (v ++ [l_index l], if l_index l =? 4 then Some 77 else None)) [200; 1] st []
    = Val ([1; 3; 1; 4], Some 77).
Proof. exact L_C23_nonvacuous. Qed.
Print Assumptions C23_nonvacuous.

Theorem C23_modifying_break :
  forall S (I : LinksI S) st st' q ch ps H B (h : uwrite H B) x,
  let heard_r := Val (st', fst (heard h ps x), Ok (snd (heard h ps x))) in
  (calls_each (fun H h x => li_create I H h q st x) st' ps -> d_create_by_with I h q st x = heard_r) /\
  (calls_each (fun H h x => li_update I H h q ch st x) st' ps -> d_update_by_with I h q ch st x = heard_r) /\
  (calls_each (fun H h x => li_delete I H h q st x) st' ps -> d_delete_by_with I h q st x = heard_r).
Proof. exact L_C23_modifying_break. Qed.
Print Assumptions C23_modifying_break.

Theorem C23_modifying_nonvacuous :
  let ps := [(nothing, mkLink 1 0 0); (nothing, mkLink 2 0 0); (nothing, mkLink 3 0 0)] in
  calls_each (fun H h x => li_create (chatty ps) H h [] 7 x) 8 ps /\
  calls_each (fun H h x => li_update (chatty ps) H h [1] [1; 2; 3] 7 x) 8 ps /\
  calls_each (fun H h x => li_delete (chatty ps) H h [1] 7 x) 8 ps /\
  d_delete_by_with (chatty ps) (fun v _ a => (v ++ [l_index a], if l_index a =? 2 then Some tt else None)) [1] 7 [] = Val (8, [1; 2], Ok (Some tt)) /\
  d_delete_by_with (chatty ps) (B := unit) (fun v _ a => (v ++ [l_index a], None)) [1] 7 [] = Val (8, [1; 2; 3], Ok None).
Proof. exact L_C23_modifying_nonvacuous. Qed.
Print Assumptions C23_modifying_nonvacuous.

(** * C24 *)
Theorem C24_find_single_iter :
  forall cf tops lops st d q,
  let U := unit_links cf tops lops in
  unit_env cf tops lops -> u_hist cf tops lops st d ->
  (length q <= 3)%nat -> (length q = 2%nat -> 2 * c_iend cf <= c_tmax cf) ->
  exists L,
    (forall H (h : rhandler H) x, u_each cf h q st x = Val (run_handler h L x)) /\
    d_find U st q = Val (match L with [] => None | l :: _ => Some l end) /\
    (exists b, d_found U st q = Val b /\ (b = true <-> L <> [])) /\
    (exists o, d_single U st q = Val o /\ forall l, o = Some l <-> L = [l]) /\
    d_each_iter U st q = Val L /\ u_count cf st q = Val (N.of_nat (length L)) /\
    (q = [c_any cf; c_any cf; c_any cf] -> d_iter cf U st = Val L).
Proof. exact L_C24_find_single_iter. Qed.
Print Assumptions C24_find_single_iter.

Theorem C24_nonvacuous :
  exists st d, u_hist ex_cf ref_tree_ops ref_list_ops st d /\
  d_find ex_U st [200; 1; 200] = Val (Some (mkLink 1 1 1)) /\ d_single ex_U st [200; 1; 200] = Val None /\
  d_single ex_U st [200; 3; 200] = Val (Some (mkLink 5 3 1)) /\ d_found ex_U st [200; 5; 200] = Val false.
Proof. exact L_C24_nonvacuous. Qed.
Print Assumptions C24_nonvacuous.

(** * C33 *)
Theorem C33_queries_partial :
  forall cf tops lops st d q,
  unit_env cf tops lops -> u_hist cf tops lops st d ->
  (length q <= 3)%nat -> (length q = 2%nat -> 2 * c_iend cf <= c_tmax cf) ->
  returns (u_count cf st q) /\ forall H (h : rhandler H) x, returns (u_each cf h q st x).
Proof. exact L_C33_queries_partial. Qed.
Print Assumptions C33_queries_partial.

Theorem C33_partial_nonvacuous :
  exists st d, u_hist ex_cf ref_tree_ops ref_list_ops st d /\
  u_count ex_cf st [200; 1] = Val 5 /\ u_count ex_cf st [3; 200; 2] = Val 1.
Proof. exact L_C33_partial_nonvacuous. Qed.
Print Assumptions C33_partial_nonvacuous.

(** Longer queries always panic. *)
Theorem C33_long_queries_panic :
  forall cf st q,
  (3 < length q)%nat ->
  u_count cf st q = Panic /\ forall H (h : rhandler H) x, u_each cf h q st x = Panic.
Proof. exact L_C33_long_queries_panic. Qed.
Print Assumptions C33_long_queries_panic.

Theorem C33_queries_refuted :
  exists st d, u_hist ex_cf ref_tree_ops ref_list_ops st d /\
  u_count ex_cf st [200; 1; 1; 1] = Panic /\
  u_each ex_cf (fun (x : unit) _ => (x, Continue)) [200; 1; 1; 1] st tt = Panic.
Proof. exact L_C33_queries_refuted. Qed.
Print Assumptions C33_queries_refuted.

(** * C34 *)
Theorem C34_open_partial :
  forall cf tops lops orc,
  unit_env cf tops lops -> c_step cf - 1 <= c_tmax cf ->
  orc 0%nat (c_page cf) = true -> orc 1%nat (c_step cf) = true ->
  exists st, u_open cf (u_blank orc) = Val (Ok st) /\ u_hist cf tops lops st [] /\
    (forall i, no_link (unit_links cf tops lops) st i) /\ u_count cf st [] = Val 0.
Proof. exact L_C34_open_partial. Qed.
Print Assumptions C34_open_partial.

Theorem C34_partial_nonvacuous :
  unit_env cf_u32 ref_tree_ops ref_list_ops /\ c_step cf_u32 - 1 <= c_tmax cf_u32.
Proof. exact L_C34_partial_nonvacuous. Qed.
Print Assumptions C34_partial_nonvacuous.

(** Opening panics whenever the step does not fit the address type: the real step
    2^20 with 8- or 16-bit addresses. *)
Theorem C34_open_panics :
  forall cf orc,
  cfg_ok cf -> c_tmax cf < c_step cf - 1 ->
  orc 0%nat (c_page cf) = true -> orc 1%nat (c_step cf) = true ->
  u_open cf (u_blank orc) = Panic.
Proof. exact L_C34_open_panics. Qed.
Print Assumptions C34_open_panics.

Theorem C34_open_refuted :
  unit_env cf_u16 ref_tree_ops ref_list_ops /\
  u_open cf_u16 (u_blank (fun _ _ => true)) = Panic.
Proof. exact L_C34_open_refuted. Qed.
Print Assumptions C34_open_refuted.

(** * C35 *)
Theorem C35_create_until_full_partial :
  forall cf tops lops st d,
  let U := unit_links cf tops lops in
  unit_env cf tops lops -> cfg_room cf -> u_hist cf tops lops st d ->
  (forall k n, u_orc st k n = true) -> ~ range_full cf U st ->
  exists st' i, d_create U st = Val (st', Ok i) /\ creates cf U st st' i /\ u_hist cf tops lops st' d.
Proof. exact L_C35_create_until_full_partial. Qed.
Print Assumptions C35_create_until_full_partial.

Theorem C35_partial_nonvacuous :
  cfg_room ex_cf /\ exists st d, u_hist ex_cf ref_tree_ops ref_list_ops st d /\
  (forall k n, u_orc st k n = true) /\ ~ range_full ex_cf ex_U st.
Proof. exact L_C35_partial_nonvacuous. Qed.
Print Assumptions C35_partial_nonvacuous.

Theorem C35_create_until_full_refuted :
  unit_env ex_cf20 ref_tree_ops ref_list_ops /\
  exists st, u_hist ex_cf20 ref_tree_ops ref_list_ops st [] /\ (forall k n, u_orc st k n = true) /\
    no_link (unit_links ex_cf20 ref_tree_ops ref_list_ops) st 16 /\
    d_create (unit_links ex_cf20 ref_tree_ops ref_list_ops) st = Panic.
Proof. exact L_C35_create_until_full_refuted. Qed.
Print Assumptions C35_create_until_full_refuted.

(** * C42 *)
Theorem C42_delete_query :
  forall cf tops lops st d q,
  let U := unit_links cf tops lops in
  unit_env cf tops lops -> u_hist cf tops lops st d ->
  (length q <= 3)%nat -> (length q = 2%nat -> 2 * c_iend cf <= c_tmax cf) ->
  ~ null_query (c_any cf) q -> ~ end_query (c_any cf) q ->
  (forall l, u_get_link cf st (l_index l) = Val (Some l) -> query_match (c_any cf) q l -> separable U st (l_index l)) ->
  exists st' L, (exists d', u_hist cf tops lops st' d') /\ NoDup L /\
    (forall l, In l L <-> u_get_link cf st (l_index l) = Val (Some l) /\ query_match (c_any cf) q l) /\
    removed U st st' L /\
    forall H B (h : uwrite H B) x, d_delete_query_with U h q st x = Val (st', told h (rev L) x, Ok tt).
Proof. exact L_C42_delete_query. Qed.
Print Assumptions C42_delete_query.

Theorem C42_nonvacuous :
  exists st d st', u_hist ex_cf ref_tree_ops ref_list_ops st d /\
  is_link ex_U st 2 1 2 /\ is_link ex_U st 4 1 2 /\
  (forall l, u_get_link ex_cf st (l_index l) = Val (Some l) -> query_match 200 [200; 200; 1] l -> separable ex_U st (l_index l)) /\
  ~ null_query 200 [200; 200; 1] /\ ~ end_query 200 [200; 200; 1] /\
  d_delete_query_with (B := unit) ex_U (fun v b _ => (v ++ [b], None)) [200; 200; 1] st []
    = Val (st', [mkLink 3 2 1; mkLink 1 1 1], Ok tt).
Proof. exact L_C42_nonvacuous. Qed.
Print Assumptions C42_nonvacuous.

(** * C43 *)
Theorem C43_exist :
  forall cf tops lops st d i,
  let U := unit_links cf tops lops in
  unit_env cf tops lops -> u_hist cf tops lops st d ->
  exists b, d_exist cf U st i = Val b /\ (b = true <-> is_external cf i = true \/ linked U st i).
Proof. exact L_C43_exist. Qed.
Print Assumptions C43_exist.

Theorem C43_nonvacuous :
  exists st d, u_hist ex_cf ref_tree_ops ref_list_ops st d /\
  d_exist ex_cf ex_U st 1 = Val false /\ d_exist ex_cf ex_U st 2 = Val true /\
  d_exist ex_cf ex_U st 333 = Val true /\ d_exist ex_cf ex_U st 200 = Val false.
Proof. exact L_C43_nonvacuous. Qed.
Print Assumptions C43_nonvacuous.

(** * C45, single-memory store *)
Theorem C45_alloc_failed_unit :
  forall cf tops lops st d q,
  let U := unit_links cf tops lops in
  unit_env cf tops lops -> u_hist cf tops lops st d ->
  (u_orc st 0%nat (u_len st + c_step cf) = false -> forall H (h : whandler H) x, returns (u_create cf lops h q st x)) /\
  (forall H (h : whandler H) x st' x', u_create cf lops h q st x = Val (st', x', Err AllocFailed) ->
     x' = x /\ same_links U st st' /\ u_hist cf tops lops st' d /\
     u_data st' = u_data st /\ u_src st' = u_src st /\ u_tgt st' = u_tgt st /\ u_len st' = u_len st /\
     (forall q, u_count cf st' q = u_count cf st q)).
Proof. exact L_C45_alloc_failed_unit. Qed.
Print Assumptions C45_alloc_failed_unit.

Theorem C45_unit_nonvacuous :
  exists st st', u_hist ex_cf ref_tree_ops ref_list_ops st [] /\
  u_create ex_cf ref_list_ops (fun n _ _ => (n + 1, Continue)) [] st 0 = Val (st', 0, Err AllocFailed) /\
  is_link ex_U st' 6 0 0.
Proof. exact L_C45_unit_nonvacuous. Qed.
Print Assumptions C45_unit_nonvacuous.

(** * C47 *)
Theorem C47_returned_index_partial :
  forall cf tops lops st d i s t,
  let U := unit_links cf tops lops in
  unit_env cf tops lops -> u_hist cf tops lops st d ->
  (linked U st i -> separable U st i -> exists st', d_update U i s t st = Val (st', Ok i) /\ is_link U st' i s t) /\
  (forall st' j, d_create U st = Val (st', Ok j) -> no_link U st j /\ is_link U st' j 0 0).
Proof. exact L_C47_returned_index_partial. Qed.
Print Assumptions C47_returned_index_partial.

Theorem C47_partial_nonvacuous :
  exists st d st1 st2, u_hist ex_cf ref_tree_ops ref_list_ops st d /\
  linked ex_U st 3 /\ separable ex_U st 3 /\ d_update ex_U 3 2 2 st = Val (st1, Ok 3) /\ d_create ex_U st = Val (st2, Ok 1).
Proof. exact L_C47_partial_nonvacuous. Qed.
Print Assumptions C47_partial_nonvacuous.

(** A successful delete always returns 0. *)
Theorem C47_delete_returns_zero :
  forall cf tops lops st d i,
  let U := unit_links cf tops lops in
  unit_env cf tops lops -> u_hist cf tops lops st d -> linked U st i -> separable U st i ->
  exists st', d_delete U i st = Val (st', Ok 0).
Proof. exact L_C47_delete_returns_zero. Qed.
Print Assumptions C47_delete_returns_zero.

Theorem C47_silent_store :
  forall S (I : LinksI S) st st' st2 q ch s t,
  (silent (fun H h x => li_create I H h q st x) st' -> d_create_by I q st = Val (st', Ok 0)) /\
  (silent (fun H h x => li_update I H h q ch st x) st' -> d_update_by I q ch st = Val (st', Ok 0)) /\
  (silent (fun H h x => li_delete I H h q st x) st' -> d_delete_by I q st = Val (st', Ok 0)) /\
  (silent (fun H h x => li_create I H h [] st x) st' -> silent (fun H h x => li_update I H h [0] [0; s; t] st' x) st2 ->
   d_create_link I s t st = Val (st2, Ok 0)).
Proof. exact L_C47_silent_store. Qed.
Print Assumptions C47_silent_store.

Theorem C47_silent_nonvacuous :
  silent (fun H h x => li_create counting H h [] 7 x) 8 /\ silent (fun H h x => li_update counting H h [0] [0; 1; 2] 8 x) 9 /\
  silent (fun H h x => li_delete counting H h [3] 7 x) 8 /\ d_create_link counting 1 2 7 = Val (9, Ok 0).
Proof. exact L_C47_silent_nonvacuous. Qed.
Print Assumptions C47_silent_nonvacuous.

Theorem C47_returned_index_refuted :
  exists st d st1 st2, u_hist ex_cf ref_tree_ops ref_list_ops st d /\
  is_link ex_U st 3 2 1 /\ d_delete ex_U 3 st = Val (st1, Ok 0) /\
  d_rebase_and_delete ex_cf ex_U 2 3 st = Val (st2, Ok 0).
Proof. exact L_C47_returned_index_refuted. Qed.
Print Assumptions C47_returned_index_refuted.

Theorem C50_rebase_and_delete_partial :
  forall cf tops lops st d old new,
  let U := unit_links cf tops lops in
  unit_env cf tops lops -> u_hist cf tops lops st d ->
  (old = new -> d_rebase_and_delete cf U old new st = Val (st, Ok new)) /\
  (old <> new -> no_link U st old -> d_rebase_and_delete cf U old new st = Val (st, Err (NotExists old))) /\
  (distinct_pairs U st -> old <> new -> linked U st old -> (forall x, x <> old -> ~ is_link U st x old old) ->
   (forall i j s t, moved U st old new i s t -> moved U st old new j s t -> (s, t) <> (0, 0) -> i = j) ->
   exists st', (exists d', u_hist cf tops lops st' d') /\ d_rebase_and_delete cf U old new st = Val (st', Ok 0) /\
     no_link U st' old /\ (forall i s t, is_link U st' i s t <-> merged U st old new i s t)).
Proof. exact L_C50_rebase_and_delete_partial. Qed.
Print Assumptions C50_rebase_and_delete_partial.

Theorem C50_partial_nonvacuous :
  exists st d st', u_hist ex_cf ref_tree_ops ref_list_ops st d /\
  distinct_pairs ex_U st /\ linked ex_U st 1 /\ (forall x, x <> 1 -> ~ is_link ex_U st x 1 1) /\
  (forall i j s t, moved ex_U st 1 5 i s t -> moved ex_U st 1 5 j s t -> (s, t) <> (0, 0) -> i = j) /\
  is_link ex_U st 3 1 2 /\ no_link ex_U st 7 /\
  d_rebase_and_delete ex_cf ex_U 1 5 st = Val (st', Ok 0) /\ no_link ex_U st' 1 /\
  is_link ex_U st' 3 5 2 /\ is_link ex_U st' 4 3 5 /\ is_link ex_U st' 5 0 0.
Proof. exact L_C50_partial_nonvacuous. Qed.
Print Assumptions C50_partial_nonvacuous.

(** A usage with [old] at both ends still refers to [old], which no longer exists. *)
Theorem C50_rebase_and_delete_refuted :
  exists st d st', u_hist ex_cf ref_tree_ops ref_list_ops st d /\
  distinct_pairs ex_U st /\ is_link ex_U st 2 1 1 /\
  d_rebase_and_delete ex_cf ex_U 1 3 st = Val (st', Ok 0) /\ no_link ex_U st' 1 /\ is_link ex_U st' 2 1 3.
Proof. exact L_C50_rebase_and_delete_refuted. Qed.
Print Assumptions C50_rebase_and_delete_refuted.

(** * C48 *)
Theorem C48_null_queries_find_nothing :
  forall cf tops lops st d q,
  unit_env cf tops lops -> u_hist cf tops lops st d -> null_query (c_any cf) q ->
  (length q = 2%nat -> 2 * c_iend cf <= c_tmax cf) ->
  u_count cf st q = Val 0 /\ forall H (h : rhandler H) x, u_each cf h q st x = Val (x, Continue).
Proof. exact L_C48_null_queries_find_nothing. Qed.
Print Assumptions C48_null_queries_find_nothing.

Theorem C48_null_queries_refuted :
  exists st d, u_hist ex_cf ref_tree_ops ref_list_ops st d /\
  is_link ex_U st 1 0 0 /\ query_match 200 [200; 0; 200] (mkLink 1 0 0) /\
  u_count ex_cf st [200; 0; 200] = Val 0 /\ u_count ex_cf st [200; 200; 0] = Val 0.
Proof. exact L_C48_null_queries_refuted. Qed.
Print Assumptions C48_null_queries_refuted.
