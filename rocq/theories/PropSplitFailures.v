(** Properties of the two-memory store outside its discipline: the failures happen on every store (C26, C27, C29, C30, C45, C51, C53). *)
From Coq Require Import NArith List Bool Lia Permutation Sorted.
From Verif Require Import SplitFailures Base Trees Lists TreeInv Spec Iface UnitModel UnitInv UnitOps UnitLinks LinkModel SplitModel Forest
  SplitInv SplitReads SplitOps SplitWrites SplitLinks Doublets Obs DoubletsOK Hist Claims TreeImpl UnitHist SplitHist
  SplitClaims SplitCrash SplitCrashClaims DefaultClaims SplitDefaults.
Import ListNotations.
Open Scope N_scope.

(** Whatever the link and whatever the source, the update to a null target reports success
    and the link is gone: it can no longer be read, updated or deleted, it is not visited,
    and it is still counted. *)
Theorem C26_null_target_always_lost :
  forall cf tops lops st d i os ot s,
  let SL := split_links cf tops lops in
  unit_env cf tops lops -> s_hist cf tops lops st d -> is_link SL st i os ot -> separable SL st i -> s <> 0 ->
  exists st', d_update SL i s 0 st = Val (st', Ok i) /\
    calls_once (fun H h x => s_update cf tops h [i] [i; s; 0] st x) st' (mkLink i os ot) (mkLink i s 0) /\
    frame SL st st' i /\ no_link SL st' i /\
    (forall s' t', d_update SL i s' t' st' = Val (st', Err (NotExists i))) /\
    d_delete SL i st' = Val (st', Err (NotExists i)) /\
    exists n, s_count cf st [] = Val (n + 1) /\ s_count cf st' [] = Val (n + 1) /\
      s_each cf (fun m _ => (m + 1, Continue)) [] st' 0 = Val (n, Continue).
Proof. exact L_C26_null_target_always_lost. Qed.
Print Assumptions C26_null_target_always_lost.

Theorem C26_always_lost_nonvacuous :
  exists st d, s_hist ex_cf ref_tree_ops ref_list_ops st d /\
  is_link ex_S st 3 2 1 /\ separable ex_S st 3 /\ is_link ex_S st 1 1 1.
Proof. exact L_C26_always_lost_nonvacuous. Qed.
Print Assumptions C26_always_lost_nonvacuous.

(** A link that has a source, updated to refer to itself: the link reads back as written,
    and the queries by its own index visit and count only the other links.  With both ends
    its own index it is not found by its pair either. *)
Theorem C29_self_reference_always_lost :
  forall cf tops lops st d i os ot s t,
  let SL := split_links cf tops lops in
  unit_env cf tops lops -> s_hist cf tops lops st d -> is_link SL st i os ot -> os <> 0 -> separable SL st i ->
  t <> 0 \/ s = 0 ->
  exists st', d_update SL i s t st = Val (st', Ok i) /\
    calls_once (fun H h x => s_update cf tops h [i] [i; s; t] st x) st' (mkLink i os ot) (mkLink i s t) /\
    is_link SL st' i s t /\ frame SL st st' i /\ s_count cf st' [] = s_count cf st [] /\
    (s = i -> exists L, others_by cf st' l_source i i L /\
       s_count cf st' [c_any cf; i; c_any cf] = Val (N.of_nat (length L)) /\
       forall H (h : rhandler H) y, s_each cf h [c_any cf; i; c_any cf] st' y = Val (run_handler h L y)) /\
    (t = i -> exists L, others_by cf st' l_target i i L /\
       s_count cf st' [c_any cf; c_any cf; i] = Val (N.of_nat (length L)) /\
       forall H (h : rhandler H) y, s_each cf h [c_any cf; c_any cf; i] st' y = Val (run_handler h L y)) /\
    (s = i -> t = i -> (forall j, is_link SL st' j i i -> j = i) -> d_search cf SL st' i i = Val None).
Proof. exact L_C29_self_reference_always_lost. Qed.
Print Assumptions C29_self_reference_always_lost.

Theorem C29_always_lost_nonvacuous :
  exists st d, s_hist ex_cf ref_tree_ops ref_list_ops st d /\
  is_link ex_S st 3 2 1 /\ separable ex_S st 3 /\ is_link ex_S st 1 1 1 /\ 2 <> 0.
Proof. exact L_C29_always_lost_nonvacuous. Qed.
Print Assumptions C29_always_lost_nonvacuous.

(** An index and one end: count demands the value at both ends, each at one. *)
Theorem C27_index_and_end_always :
  forall cf tops lops st d i s t v,
  let SL := split_links cf tops lops in
  unit_env cf tops lops -> s_hist cf tops lops st d -> is_link SL st i s t -> v <> c_any cf ->
  s_count cf st [i; v] = Val (if (s =? v) && (t =? v) then 1 else 0) /\
  (forall H (h : rhandler H) x,
     s_each cf h [i; v] st x = Val (if (s =? v) || (t =? v) then h x (mkLink i s t) else (x, Continue))).
Proof. exact L_C27_index_and_end_always. Qed.
Print Assumptions C27_index_and_end_always.

Theorem C27_index_and_end_nonvacuous :
  exists st d, s_hist ex_cf ref_tree_ops ref_list_ops st d /\
  is_link ex_S st 2 1 2 /\ is_link ex_S st 1 1 1 /\
  s_count ex_cf st [2; 1] = Val 0 /\ s_count ex_cf st [1; 1] = Val 1 /\ s_count ex_cf st [1; 2] = Val 0.
Proof. exact L_C27_index_and_end_nonvacuous. Qed.
Print Assumptions C27_index_and_end_nonvacuous.

(** A source that is not a link: the count is the same for every target.  It is the number
    of links with this source when some link has an outer source or the store has no hole;
    otherwise it is the index of a hole, the one the next create gives, although each visits
    nothing. *)
Theorem C27_outer_source_always :
  forall cf tops lops st d s,
  let SL := split_links cf tops lops in
  unit_env cf tops lops -> s_hist cf tops lops st d -> no_link SL st s -> s <> 0 -> s <> c_any cf ->
  exists n, (forall t, s_count cf st [c_any cf; s; t] = Val n) /\
    (outer_source SL st \/ no_hole SL st -> exists L, by_source cf st s L /\ n = N.of_nat (length L)) /\
    (~ outer_source SL st -> ~ no_hole SL st ->
       hole SL st n /\ (forall st' i, d_create SL st = Val (st', Ok i) -> i = n) /\
       forall H (h : rhandler H) x, s_each cf h [c_any cf; s; c_any cf] st x = Val (x, Continue)).
Proof. exact L_C27_outer_source_always. Qed.
Print Assumptions C27_outer_source_always.

Theorem C27_outer_source_nonvacuous :
  exists st d, s_hist ex_cf ref_tree_ops ref_list_ops st d /\
  no_link ex_S st 1 /\ ~ outer_source ex_S st /\ hole ex_S st 2 /\ s_count ex_cf st [200; 1; 77] = Val 3.
Proof. exact L_C27_outer_source_nonvacuous. Qed.
Print Assumptions C27_outer_source_nonvacuous.

(** A query by a null source walks the tree under the highest link, wherever that link is
    filed, if the store has a hole: it visits the highest link, and otherwise only links
    with a source.  Without a hole it visits nothing. *)
Theorem C51_null_source_always :
  forall cf tops lops st d,
  let SL := split_links cf tops lops in
  unit_env cf tops lops -> s_hist cf tops lops st d ->
  (no_hole SL st -> forall H (h : rhandler H) x, s_each cf h [c_any cf; 0; c_any cf] st x = Val (x, Continue)) /\
  forall k s t, is_link SL st k s t -> (forall j, linked SL st j -> j <= k) -> ~ no_hole SL st ->
    exists L, In (mkLink k s t) L /\
      (forall l, In l L -> is_link SL st (l_index l) (l_source l) (l_target l)) /\
      (s = 0 -> L = [mkLink k 0 t] /\ s_count cf st [c_any cf; 0; c_any cf] = Val 0) /\
      (s <> 0 -> (forall l, In l L -> l_source l <> 0) /\
         s_count cf st [c_any cf; 0; c_any cf] = Val (N.of_nat (length L))) /\
      forall H (h : rhandler H) x, s_each cf h [c_any cf; 0; c_any cf] st x = Val (run_handler h L x).
Proof. exact L_C51_null_source_always. Qed.
Print Assumptions C51_null_source_always.

Theorem C51_null_source_nonvacuous :
  exists st d, s_hist ex_cf ref_tree_ops ref_list_ops st d /\
  is_link ex_S st 2 0 0 /\ is_link ex_S st 3 2 2 /\ hole ex_S st 1 /\ (forall j, linked ex_S st j -> j <= 3) /\
  s_count ex_cf st [200; 0; 200] = Val 1 /\
  s_each ex_cf (fun v l => (v ++ [l], Continue)) [200; 0; 200] st [] = Val ([mkLink 3 2 2], Continue).
Proof. exact L_C51_null_source_nonvacuous. Qed.
Print Assumptions C51_null_source_nonvacuous.

(** Whatever the store, if the index memory alone cannot grow, create reports the failure and
    from then on every access to a link is undefined behaviour; only the total can be read. *)
Theorem C45_split_index_failure_always :
  forall cf tops lops st d q orc H (h : whandler H) x st1 x1,
  let SL := split_links cf tops lops in
  unit_env cf tops lops -> s_hist cf tops lops st d ->
  (forall a b, orc 0%nat a b = NoIndex) ->
  s_create cf tops lops h q (s_forecast st orc) x = Val (st1, x1, Err AllocFailed) ->
  x1 = x /\ s_count cf st1 [] = s_count cf st [] /\
  (forall i s t, is_link SL st i s t ->
     s_get_link cf st1 i = UB /\ (forall s' t', d_update SL i s' t' st1 = UB) /\ d_delete SL i st1 = UB /\
     forall H2 (h2 : rhandler H2) y, s_each cf h2 [] st1 y = UB).
Proof. exact L_C45_split_index_failure_always. Qed.
Print Assumptions C45_split_index_failure_always.

Theorem C45_split_index_always_nonvacuous :
  exists st d orc st1, s_hist ex_cf ref_tree_ops ref_list_ops st d /\
  is_link ex_S st 1 0 0 /\ is_link ex_S st 2 1 1 /\ (forall a b, orc 0%nat a b = NoIndex) /\
  s_create ex_cf ref_tree_ops ref_list_ops (fun (x : N) _ _ => (x, Continue)) [] (s_forecast st orc) 0 = Val (st1, 0, Err AllocFailed).
Proof. exact L_C45_split_index_always_nonvacuous. Qed.
Print Assumptions C45_split_index_always_nonvacuous.

(** The two stores never agree on a null source: as long as there is no hole the one finds
    each pair with a null source and a target that is a link, the other none. *)
Theorem C30_null_source_always :
  forall cf tops lops us ss i t,
  let U := unit_links cf tops lops in let SL := split_links cf tops lops in
  unit_env cf tops lops -> twins cf tops lops us ss -> no_hole SL ss -> is_link SL ss i 0 t -> linked SL ss t ->
  d_search cf U us 0 t = Val None /\ exists j, is_link SL ss j 0 t /\ d_search cf SL ss 0 t = Val (Some j).
Proof. exact L_C30_null_source_always. Qed.
Print Assumptions C30_null_source_always.

Theorem C30_null_source_nonvacuous :
  exists us ss, twins ex_cf ref_tree_ops ref_list_ops us ss /\ no_hole ex_S ss /\
  is_link ex_S ss 1 0 2 /\ is_link ex_S ss 2 0 2 /\ linked ex_S ss 2.
Proof. exact L_C30_null_source_nonvacuous. Qed.
Print Assumptions C30_null_source_nonvacuous.

(** A pair that refers to the index given to a new link is lost by the creation: it stays,
    but search does not find it any more, and get_or_create makes a second link of it. *)
Theorem C53_dangling_pair_always_lost :
  forall cf tops lops st d s t k st1,
  let SL := split_links cf tops lops in
  unit_env cf tops lops -> s_hist cf tops lops st d ->
  s <> 0 -> t <> 0 -> s <> c_any cf -> t <> c_any cf -> s <> k -> t <> k ->
  d_get_or_create cf SL s t st = Val (st1, Ok k) -> no_link SL st k ->
  is_link SL st1 k s t /\ frame SL st st1 k /\
  (forall y u, is_link SL st y k u -> u <> c_any cf ->
     d_search cf SL st1 k u = Val None /\ d_get_or_create cf SL k u st1 = d_create_link SL k u st1) /\
  (forall y u, is_link SL st y u k -> u <> 0 -> u <> c_any cf ->
     d_search cf SL st1 u k = Val None /\ d_get_or_create cf SL u k st1 = d_create_link SL u k st1).
Proof. exact L_C53_dangling_pair_always_lost. Qed.
Print Assumptions C53_dangling_pair_always_lost.

Theorem C53_dangling_pair_nonvacuous :
  exists st d st1, s_hist ex_cf ref_tree_ops ref_list_ops st d /\ distinct_pairs ex_S st /\
  no_link ex_S st 3 /\ is_link ex_S st 2 3 1 /\ d_search ex_cf ex_S st 3 1 = Val (Some 2) /\
  is_link ex_S st 4 4 3 /\ d_search ex_cf ex_S st 4 3 = Val (Some 4) /\
  d_get_or_create ex_cf ex_S 1 4 st = Val (st1, Ok 3).
Proof. exact L_C53_dangling_pair_nonvacuous. Qed.
Print Assumptions C53_dangling_pair_nonvacuous.
