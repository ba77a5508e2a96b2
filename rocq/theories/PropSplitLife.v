(** Using a two-memory store freely (C83). *)
From Coq Require Import NArith List Bool Lia Permutation Sorted.
From Verif Require Import SplitLife Base Trees Lists TreeInv Spec Iface UnitModel UnitInv UnitOps LinkModel SplitModel Forest
  SplitInv SplitReads SplitOps SplitWrites SplitLinks Doublets DoubletsOK Obs Hist Claims UnitHist TreeImpl SplitHist.
Import ListNotations.
Open Scope N_scope.

(** Every creation succeeds as usual and changes no other link; the links that referred to the
    new index become misfiled. *)
Theorem C83_create :
  forall cf tops lops st Ms Mt q,
  let S := split_links cf tops lops in
  unit_env cf tops lops -> cfg_room cf -> slife cf tops lops st Ms Mt ->
  (range_full cf S st /\ fails_with (fun H h x => li_create S H h q st x) st (LimitReached (c_iend cf))) \/
  (~ range_full cf S st /\ exists st', same_links S st st' /\ slife cf tops lops st' Ms Mt /\
     fails_with (fun H h x => li_create S H h q st x) st' AllocFailed) \/
  (exists st' i, creates cf S st st' i /\
     slife cf tops lops st' (fun j => Ms j \/ exists t, is_link S st j i t) (fun j => Mt j \/ exists s, is_link S st j s i) /\
     calls_once (fun H h x => li_create S H h q st x) st' nothing (mkLink i 0 0)).
Proof. exact L_C83_create. Qed.
Print Assumptions C83_create.

(** An update of a link that is not misfiled changes that link and no other.  A link that had a
    source and is made to refer to itself becomes misfiled. *)
Theorem C83_update_partial :
  forall cf tops lops st Ms Mt i os ot s t,
  let S := split_links cf tops lops in
  unit_env cf tops lops -> slife cf tops lops st Ms Mt -> is_link S st i os ot ->
  may_touch cf tops lops st Ms Mt i -> (t = 0 -> s = 0) ->
  exists st', is_link S st' i s t /\ frame S st st' i /\
    slife cf tops lops st' (fun j => Ms j \/ (j = i /\ s = i /\ os <> 0)) (fun j => Mt j \/ (j = i /\ t = i /\ os <> 0)) /\
    calls_once (fun H h x => li_update S H h [i] [i; s; t] st x) st' (mkLink i os ot) (mkLink i s t).
Proof. exact L_C83_update_partial. Qed.
Print Assumptions C83_update_partial.

(** A deletion of a link that is not misfiled removes that link and changes no other.  The links
    that were misfiled because they refer to it no longer are. *)
Theorem C83_delete_partial :
  forall cf tops lops st Ms Mt i os ot,
  let S := split_links cf tops lops in
  unit_env cf tops lops -> slife cf tops lops st Ms Mt -> is_link S st i os ot -> may_touch cf tops lops st Ms Mt i ->
  (forall j s t, is_link S st j s t -> j <> i -> (s = i /\ ~ Ms j) \/ (t = i /\ ~ Mt j) -> separable S st j) ->
  exists st', no_link S st' i /\ frame S st st' i /\
    slife cf tops lops st' (fun j => Ms j /\ forall t, ~ is_link S st j i t) (fun j => Mt j /\ forall s, ~ is_link S st j s i) /\
    calls_once (fun H h x => li_delete S H h [i] st x) st' (mkLink i os ot) nothing.
Proof. exact L_C83_delete_partial. Qed.
Print Assumptions C83_delete_partial.

Theorem C83_missing :
  forall cf tops lops st Ms Mt i,
  let S := split_links cf tops lops in
  unit_env cf tops lops -> slife cf tops lops st Ms Mt -> no_link S st i ->
  (forall s t, fails_with (fun H h x => li_update S H h [i] [i; s; t] st x) st (NotExists i)) /\
  fails_with (fun H h x => li_delete S H h [i] st x) st (NotExists i).
Proof. exact L_C83_missing. Qed.
Print Assumptions C83_missing.

(** Every index is a link or not, and a misfiled link refers to a link. *)
Theorem C83_misfiled :
  forall cf tops lops st Ms Mt,
  let S := split_links cf tops lops in
  unit_env cf tops lops -> slife cf tops lops st Ms Mt ->
  (forall i, linked S st i \/ no_link S st i) /\
  (forall i, Ms i -> exists v t, is_link S st i v t /\ linked S st v) /\
  (forall i, Mt i -> exists s v, is_link S st i s v /\ linked S st v).
Proof. exact L_C83_misfiled. Qed.
Print Assumptions C83_misfiled.

(** count and each see every link, misfiled or not. *)
Theorem C83_count_and_each_all :
  forall cf tops lops st Ms Mt q,
  let S := split_links cf tops lops in let any := c_any cf in
  unit_env cf tops lops -> slife cf tops lops st Ms Mt ->
  q = [] \/ q = [any] \/ q = [any; any] \/ q = [any; any; any] ->
  exists L, all_links S st L /\ li_count S st q = Val (N.of_nat (length L)) /\
    forall H (h : rhandler H) x, li_each S H h q st x = Val (run_handler h L x).
Proof. exact L_C83_count_and_each_all. Qed.
Print Assumptions C83_count_and_each_all.

(** A query for one index visits that link if it is there and matches. *)
Theorem C83_by_index :
  forall cf tops lops st Ms Mt i q,
  let S := split_links cf tops lops in
  unit_env cf tops lops -> slife cf tops lops st Ms Mt -> i <> c_any cf ->
  q = [i] \/ (exists v, q = [i; v]) \/ (exists s t, q = [i; s; t]) ->
  (forall l, li_get S st i = Val (Some l) -> query_match (c_any cf) q l ->
     (forall H (h : rhandler H) x, li_each S H h q st x = Val (h x l)) /\
     (length q <> 2%nat -> li_count S st q = Val 1)) /\
  ((forall l, li_get S st i = Val (Some l) -> ~ query_match (c_any cf) q l) ->
     (forall H (h : rhandler H) x, li_each S H h q st x = Val (x, Continue)) /\
     (length q <> 2%nat -> li_count S st q = Val 0)).
Proof. exact L_C83_by_index. Qed.
Print Assumptions C83_by_index.

(** A query by source or by target visits the links that match, except the misfiled ones. *)
Theorem C83_by_source :
  forall cf tops lops st Ms Mt v,
  let S := split_links cf tops lops in
  unit_env cf tops lops -> slife cf tops lops st Ms Mt -> v <> 0 -> v <> c_any cf ->
  exists L, NoDup L /\
    (forall l, In l L <-> is_link S st (l_index l) (l_source l) (l_target l) /\ l_source l = v /\ ~ Ms (l_index l)) /\
    (forall H (h : rhandler H) x, li_each S H h [c_any cf; v; c_any cf] st x = Val (run_handler h L x)) /\
    (linked S st v -> li_count S st [c_any cf; v; c_any cf] = Val (N.of_nat (length L))).
Proof. exact L_C83_by_source. Qed.
Print Assumptions C83_by_source.

Theorem C83_by_target :
  forall cf tops lops st Ms Mt v,
  let S := split_links cf tops lops in
  unit_env cf tops lops -> slife cf tops lops st Ms Mt -> v <> 0 -> v <> c_any cf ->
  exists L, NoDup L /\
    (forall l, In l L <-> is_link S st (l_index l) (l_source l) (l_target l) /\ l_target l = v /\ ~ Mt (l_index l)) /\
    (forall H (h : rhandler H) x, li_each S H h [c_any cf; c_any cf; v] st x = Val (run_handler h L x)) /\
    li_count S st [c_any cf; c_any cf; v] = Val (N.of_nat (length L)).
Proof. exact L_C83_by_target. Qed.
Print Assumptions C83_by_target.

(** A query for either end visits the former, then the latter. *)
Theorem C83_either_end :
  forall cf tops lops st Ms Mt v,
  let S := split_links cf tops lops in
  unit_env cf tops lops -> slife cf tops lops st Ms Mt -> v <> 0 -> v <> c_any cf ->
  exists L1 L2, NoDup L1 /\ NoDup L2 /\
    (forall l, In l L1 <-> is_link S st (l_index l) (l_source l) (l_target l) /\ l_source l = v /\ ~ Ms (l_index l)) /\
    (forall l, In l L2 <-> is_link S st (l_index l) (l_source l) (l_target l) /\ l_target l = v /\ ~ Mt (l_index l)) /\
    forall H (h : rhandler H) x, li_each S H h [c_any cf; v] st x = Val (run_handler h (L1 ++ L2) x).
Proof. exact L_C83_either_end. Qed.
Print Assumptions C83_either_end.

(** A search for a pair finds a link that has it, unless every such link is misfiled. *)
Theorem C83_search :
  forall cf tops lops st Ms Mt s t,
  let S := split_links cf tops lops in
  unit_env cf tops lops -> slife cf tops lops st Ms Mt -> s <> 0 -> t <> 0 -> s <> c_any cf -> t <> c_any cf ->
  (exists l, is_link S st (l_index l) s t /\ l_source l = s /\ l_target l = t /\
     forall H (h : rhandler H) x, li_each S H h [c_any cf; s; t] st x = Val (h x l)) \/
  ((forall i, is_link S st i s t -> Ms i \/ Mt i) /\
   forall H (h : rhandler H) x, li_each S H h [c_any cf; s; t] st x = Val (x, Continue)).
Proof. exact L_C83_search. Qed.
Print Assumptions C83_search.

(** The store takes a misfiled link out of a tree it is not in, whenever it is changed or
    deleted: with a tree that checks this, both calls panic. *)
Theorem C83_stray :
  forall cf tops lops st Ms Mt i,
  let tops' := member_tree tops in let S := split_links cf tops' lops in
  unit_env cf tops lops -> slife cf tops' lops st Ms Mt -> separable S st i -> Ms i \/ Mt i ->
  unit_env cf tops' lops /\
  (forall s t H (h : whandler H) x, li_update S H h [i] [i; s; t] st x = Panic) /\
  ((forall j s t, is_link S st j s t -> j <> i -> (s = i /\ ~ Ms j) \/ (t = i /\ ~ Mt j) -> separable S st j) ->
   forall H (h : whandler H) x, li_delete S H h [i] st x = Panic).
Proof. exact L_C83_stray. Qed.
Print Assumptions C83_stray.

Theorem C83_nonvacuous :
  (exists st Ms Mt, slife ex_cf ref_tree_ops ref_list_ops st Ms Mt /\ Ms 1 /\ Mt 1 /\ is_link ex_S st 1 3 3 /\
     is_link ex_S st 2 2 1 /\ may_touch ex_cf ref_tree_ops ref_list_ops st Ms Mt 2 /\
     is_link ex_S st 3 0 0 /\ may_touch ex_cf ref_tree_ops ref_list_ops st Ms Mt 3 /\
     (forall j s t, is_link ex_S st j s t -> j <> 3 -> (s = 3 /\ ~ Ms j) \/ (t = 3 /\ ~ Mt j) -> separable ex_S st j) /\
     no_link ex_S st 4) /\
  (exists st Ms Mt, let S := split_links ex_cf (member_tree ref_tree_ops) ref_list_ops in
     slife ex_cf (member_tree ref_tree_ops) ref_list_ops st Ms Mt /\ separable S st 1 /\ Ms 1 /\
     forall j s t, is_link S st j s t -> j <> 1 -> (s = 1 /\ ~ Ms j) \/ (t = 1 /\ ~ Mt j) -> separable S st j) /\
  cfg_room ex_cf.
Proof. exact L_C83_nonvacuous. Qed.
Print Assumptions C83_nonvacuous.

(** With trees that do not check, the deletion of a misfiled link returns normally, and the
    deleted link is still visited, with ends it never had. *)
Theorem C83_refuted :
  exists st Ms Mt st',
  slife ex_cf ref_tree_ops ref_list_ops st Ms Mt /\ is_link ex_S st 1 3 3 /\ separable ex_S st 1 /\ Ms 1 /\ Mt 1 /\
  li_delete ex_S unit cont [1] st tt = Val (st', tt, Ok Continue) /\
  no_link ex_S st' 1 /\ li_count ex_S st' [] = Val 2 /\
  li_each ex_S _ (fun v l => (v ++ [l], Continue)) [200; 1; 200] st' [] = Val ([mkLink 1 1 1], Continue).
Proof. exact L_C83_refuted. Qed.
Print Assumptions C83_refuted.
