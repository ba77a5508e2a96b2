(** A two-memory store used on after interrupted updates, creations and deletions (C86). *)
From Coq Require Import NArith List Bool Lia Permutation Sorted.
From Verif Require Import SplitAfterCrash Base Trees Lists TreeInv Spec Iface UnitModel UnitInv UnitOps LinkModel SplitModel Forest
  SplitInv SplitReads SplitOps SplitWrites SplitLinks Doublets DoubletsOK Obs Hist Claims UnitHist TreeImpl SplitHist SplitCrash SplitCrashClaims SplitScars.
From Verif Require Scars SplitLife AfterCrash.
Import ListNotations.
Open Scope N_scope.

(** An index shows a link if a pair is stored there and either it has no source or it is in a
    tree of targets; every other index shows none. *)
Theorem C86_reads :
  forall cf tops lops st D sP tP,
  let S := split_links cf tops lops in
  unit_env cf tops lops -> clife cf tops lops st D sP tP ->
  (forall i s t, is_link S st i s t <-> D i = Some (s, t) /\ (s = 0 \/ tP i <> Out)) /\
  (forall i, no_link S st i <-> forall s t, D i = Some (s, t) -> s <> 0 /\ tP i = Out).
Proof. exact L_C86_reads. Qed.
Print Assumptions C86_reads.

(** A link that cannot be read is lost: no use of the store changes it, removes it, or makes it
    readable again, and its index is never given out. *)
Theorem C86_lost :
  forall cf tops lops st D sP tP st' D' sP' tP' i s t,
  unit_env cf tops lops -> clife cf tops lops st D sP tP -> csteps cf tops lops st D sP tP st' D' sP' tP' ->
  D i = Some (s, t) -> s <> 0 -> tP i = Out ->
  clife cf tops lops st' D' sP' tP' /\ D' i = Some (s, t) /\ tP' i = Out.
Proof. exact L_C86_lost. Qed.
Print Assumptions C86_lost.

(** count says how many pairs are stored; each visits those of them that can be read. *)
Theorem C86_count_and_each_all :
  forall cf tops lops st D sP tP q,
  let S := split_links cf tops lops in let any := c_any cf in
  unit_env cf tops lops -> clife cf tops lops st D sP tP ->
  q = [] \/ q = [any] \/ q = [any; any] \/ q = [any; any; any] ->
  exists L, StronglySorted (fun k l => l_index k < l_index l) L /\ (forall i s t, In (mkLink i s t) L <-> D i = Some (s, t)) /\
    li_count S st q = Val (N.of_nat (length L)) /\
    forall H (h : rhandler H) x, li_each S H h q st x = Val (run_handler h (filter (fun l => readable D tP (l_index l)) L) x).
Proof. exact L_C86_count_and_each_all. Qed.
Print Assumptions C86_count_and_each_all.

(** A query for one index visits that link if it can be read and matches. *)
Theorem C86_by_index :
  forall cf tops lops st D sP tP i q,
  let S := split_links cf tops lops in
  unit_env cf tops lops -> clife cf tops lops st D sP tP -> i <> c_any cf ->
  q = [i] \/ (exists v, q = [i; v]) \/ (exists s t, q = [i; s; t]) ->
  (forall l, li_get S st i = Val (Some l) -> query_match (c_any cf) q l ->
     (forall H (h : rhandler H) x, li_each S H h q st x = Val (h x l)) /\
     (length q <> 2%nat -> li_count S st q = Val 1)) /\
  ((forall l, li_get S st i = Val (Some l) -> ~ query_match (c_any cf) q l) ->
     (forall H (h : rhandler H) x, li_each S H h q st x = Val (x, Continue)) /\
     (length q <> 2%nat -> li_count S st q = Val 0)).
Proof. exact L_C86_by_index. Qed.
Print Assumptions C86_by_index.

(** A query by source or by target visits the stored links that match and are in the tree in
    which the store looks, whether they can be read or not. *)
Theorem C86_by_source :
  forall cf tops lops st D sP tP v,
  let S := split_links cf tops lops in
  unit_env cf tops lops -> clife cf tops lops st D sP tP -> v <> 0 -> v <> c_any cf ->
  exists L, NoDup L /\
    (forall l, In l L <-> D (l_index l) = Some (l_source l, l_target l) /\ l_source l = v /\ sP (l_index l) = home D tP v) /\
    (forall H (h : rhandler H) x, li_each S H h [c_any cf; v; c_any cf] st x = Val (run_handler h L x)) /\
    (linked S st v -> li_count S st [c_any cf; v; c_any cf] = Val (N.of_nat (length L))).
Proof. exact L_C86_by_source. Qed.
Print Assumptions C86_by_source.

Theorem C86_by_target :
  forall cf tops lops st D sP tP v,
  let S := split_links cf tops lops in
  unit_env cf tops lops -> clife cf tops lops st D sP tP -> v <> 0 -> v <> c_any cf ->
  exists L, NoDup L /\
    (forall l, In l L <-> D (l_index l) = Some (l_source l, l_target l) /\ l_target l = v /\ tP (l_index l) = home D tP v) /\
    (forall H (h : rhandler H) x, li_each S H h [c_any cf; c_any cf; v] st x = Val (run_handler h L x)) /\
    li_count S st [c_any cf; c_any cf; v] = Val (N.of_nat (length L)).
Proof. exact L_C86_by_target. Qed.
Print Assumptions C86_by_target.

(** A query for either end visits the former, then the latter. *)
Theorem C86_either_end :
  forall cf tops lops st D sP tP v,
  let S := split_links cf tops lops in
  unit_env cf tops lops -> clife cf tops lops st D sP tP -> v <> 0 -> v <> c_any cf ->
  exists L1 L2, NoDup L1 /\ NoDup L2 /\
    (forall l, In l L1 <-> D (l_index l) = Some (l_source l, l_target l) /\ l_source l = v /\ sP (l_index l) = home D tP v) /\
    (forall l, In l L2 <-> D (l_index l) = Some (l_source l, l_target l) /\ l_target l = v /\ tP (l_index l) = home D tP v) /\
    forall H (h : rhandler H) x, li_each S H h [c_any cf; v] st x = Val (run_handler h (L1 ++ L2) x).
Proof. exact L_C86_either_end. Qed.
Print Assumptions C86_either_end.

(** A search for a pair finds a stored link that has it: if that link can be read it is
    reported, otherwise the behaviour is undefined.  Nothing is found only if every stored link
    with that pair is missing from one of the trees in which the store looks. *)
Theorem C86_search :
  forall cf tops lops st D sP tP s t,
  let S := split_links cf tops lops in
  unit_env cf tops lops -> clife cf tops lops st D sP tP -> s <> 0 -> t <> 0 -> s <> c_any cf -> t <> c_any cf ->
  (exists i, D i = Some (s, t) /\ (sP i = home D tP s \/ tP i = home D tP t) /\
     (forall H (h : rhandler H) x, li_each S H h [c_any cf; s; t] st x =
        match tP i with Out => UB | _ => Val (h x (mkLink i s t)) end) /\
     (linked S st s -> li_count S st [c_any cf; s; t] = Val 1)) \/
  ((forall i, D i = Some (s, t) -> sP i <> home D tP s \/ tP i <> home D tP t) /\
   (forall H (h : rhandler H) x, li_each S H h [c_any cf; s; t] st x = Val (x, Continue)) /\
   (linked S st s -> li_count S st [c_any cf; s; t] = Val 0)).
Proof. exact L_C86_search. Qed.
Print Assumptions C86_search.

(** A creation gives out an index at which nothing is stored and changes no other link.  It
    reports that the limit is reached only if a pair is stored at every index of the range,
    though some may not be readable. *)
Theorem C86_create :
  forall cf tops lops st D sP tP q,
  let S := split_links cf tops lops in
  unit_env cf tops lops -> cfg_room cf -> clife cf tops lops st D sP tP ->
  ((forall i, 1 <= i <= c_iend cf -> D i <> None) /\
     fails_with (fun H h x => li_create S H h q st x) st (LimitReached (c_iend cf))) \/
  (~ (forall i, 1 <= i <= c_iend cf -> D i <> None) /\
   exists st', same_links S st st' /\ clife cf tops lops st' D sP tP /\
     fails_with (fun H h x => li_create S H h q st x) st' AllocFailed) \/
  (exists st' i, D i = None /\ creates cf S st st' i /\ clife cf tops lops st' (upd D i (Some (0, 0))) sP tP /\
     calls_once (fun H h x => li_create S H h q st x) st' nothing (mkLink i 0 0)).
Proof. exact L_C86_create. Qed.
Print Assumptions C86_create.

(** An update of a link that is where the store looks for it changes that link and no other.
    The link can be read afterwards unless it is given a source and no target. *)
Theorem C86_update_partial :
  forall cf tops lops st D sP tP i os ot s t,
  let S := split_links cf tops lops in
  unit_env cf tops lops -> clife cf tops lops st D sP tP -> may_update D sP tP i os ot ->
  exists st', (s = 0 \/ t <> 0 -> is_link S st' i s t) /\ (s <> 0 -> t = 0 -> no_link S st' i) /\ frame S st st' i /\
    clife cf tops lops st' (upd D i (Some (s, t))) (upd sP i (home D (upd tP i Out) s)) (upd tP i (home D (upd tP i Out) t)) /\
    calls_once (fun H h x => li_update S H h [i] [i; s; t] st x) st' (mkLink i os ot) (mkLink i s t).
Proof. exact L_C86_update_partial. Qed.
Print Assumptions C86_update_partial.

(** A deletion of a link that is where the store looks for it removes that link and changes no
    other, if the links that refer to it can be moved and, when it is the last stored link, the
    highest one left can be read. *)
Theorem C86_delete_partial :
  forall cf tops lops st D sP tP i os ot,
  let S := split_links cf tops lops in
  unit_env cf tops lops -> clife cf tops lops st D sP tP -> may_delete D sP tP i os ot ->
  exists st' n, no_link S st' i /\ frame S st st' i /\
    li_count S st [] = Val (n + 1) /\ li_count S st' [] = Val n /\
    clife cf tops lops st' (upd D i None) (upd (SplitWrites.moved i sP) i Out) (upd (SplitWrites.moved i tP) i Out) /\
    calls_once (fun H h x => li_delete S H h [i] st x) st' (mkLink i os ot) nothing.
Proof. exact L_C86_delete_partial. Qed.
Print Assumptions C86_delete_partial.

(** What cannot be read cannot be changed or deleted. *)
Theorem C86_missing :
  forall cf tops lops st D sP tP i,
  let S := split_links cf tops lops in
  unit_env cf tops lops -> clife cf tops lops st D sP tP -> no_link S st i ->
  (forall s t, fails_with (fun H h x => li_update S H h [i] [i; s; t] st x) st (NotExists i)) /\
  fails_with (fun H h x => li_delete S H h [i] st x) st (NotExists i).
Proof. exact L_C86_missing. Qed.
Print Assumptions C86_missing.

(** Whatever a life left in the memories, they can be opened again if there is room, and what is
    stored and where is as before. *)
Theorem C86_reopens :
  forall cf tops lops st D sP tP orc,
  let c := s_capacity cf (sh_alloc st) in
  unit_env cf tops lops -> clife cf tops lops st D sP tP -> sh_alloc st < c -> c - 1 <= c_tmax cf ->
  both_or_none orc -> orc 0%nat (c_page cf) (c_page cf) = Grown -> orc 1%nat c c = Grown ->
  exists st', s_open cf (s_persist st orc) = Val (Ok st') /\ clife cf tops lops st' D sP tP /\
    same_links (split_links cf tops lops) st st'.
Proof. exact L_C86_reopens. Qed.
Print Assumptions C86_reopens.

(** Interrupting an update that may be made, at any point: the store opened again is a life as
    well.  No other link reads differently.  The link itself has its old pair up to the two
    detaches; then its fields are written one after the other, and until it is in a tree of
    targets again it cannot be read if it has a source. *)
Theorem C86_interrupted_update :
  forall cf tops lops st D sP tP i os ot s t k,
  let S := split_links cf tops lops in
  unit_env cf tops lops -> clife cf tops lops st D sP tP -> may_update D sP tP i os ot ->
  exists st1, s_stop tops st i os ot s t k = Val st1 /\
    forall st', reopened cf st1 st' ->
      clife cf tops lops st' (upd D i (Some (s_fields k os ot s t))) (stop_s D sP tP i s k) (stop_t D tP i t k) /\
      frame S st st' i /\
      match k with
      | 0%nat | 1%nat => is_link S st' i os ot
      | 2%nat => (os = 0 -> is_link S st' i 0 ot) /\ (os <> 0 -> no_link S st' i)
      | 3%nat => (s = 0 -> is_link S st' i 0 ot) /\ (s <> 0 -> no_link S st' i)
      | 4%nat | 5%nat => (s = 0 -> is_link S st' i 0 t) /\ (s <> 0 -> no_link S st' i)
      | _ => (s = 0 \/ t <> 0 -> is_link S st' i s t) /\ (s <> 0 -> t = 0 -> no_link S st' i)
      end.
Proof. exact L_C86_interrupted_update. Qed.
Print Assumptions C86_interrupted_update.

(** Interrupting a creation: the store opened again shows the same links, or one more, at an
    index at which nothing was stored. *)
Theorem C86_interrupted_create :
  forall cf tops lops st D sP tP st1 st',
  let S := split_links cf tops lops in
  unit_env cf tops lops -> clife cf tops lops st D sP tP -> s_create_point cf tops lops st st1 -> reopened cf st1 st' ->
  (clife cf tops lops st' D sP tP /\ same_links S st st') \/
  (exists i, D i = None /\ clife cf tops lops st' (upd D i (Some (0, 0))) sP tP /\ is_link S st' i 0 0 /\ frame S st st' i).
Proof. exact L_C86_interrupted_create. Qed.
Print Assumptions C86_interrupted_create.

Theorem C86_interrupted_delete :
  forall cf tops lops st D sP tP i os ot p st1 st',
  let S := split_links cf tops lops in
  unit_env cf tops lops -> clife cf tops lops st D sP tP -> may_delete D sP tP i os ot ->
  s_delete_at cf tops lops st i os ot p st1 -> reopened cf st1 st' ->
  (exists D' sP' tP', clife cf tops lops st' D' sP' tP' /\ D' i = del_pair os ot p /\
     (forall j, j <> i -> D j <> None -> D' j = D j) /\
     (forall j, D j = None -> D' j = None \/ (D' j = Some (0, 0) /\ exists n, p = SDetaching n))) /\
  match p with
  | Resolving (MidTarget _ x) => x <> i /\ frame S st st' x /\ exists s, D x = Some (s, i) /\ (s = 0 -> is_link S st' x 0 i) /\ (s <> 0 -> no_link S st' x)
  | Resolving _ | Emptying 0 | Emptying 1 => same_links S st st'
  | Emptying 2 => frame S st st' i /\ (os = 0 -> is_link S st' i 0 ot) /\ (os <> 0 -> no_link S st' i)
  | Emptying 3 => frame S st st' i /\ is_link S st' i 0 ot
  | Emptying _ => frame S st st' i /\ is_link S st' i 0 0
  | SListed | STrimming _ => frame S st st' i /\ no_link S st' i
  | SDetaching _ => no_link S st' i /\
      forall j, j <> i -> li_get S st' j = li_get S st j \/ (D j = None /\ is_link S st' j 0 0)
  end.
Proof. exact L_C86_interrupted_delete. Qed.
Print Assumptions C86_interrupted_delete.

(** A link that is not where the store looks for it is taken out of a tree it is not in, whenever
    it is changed or deleted: with a tree that checks this, both calls panic. *)
Theorem C86_stray :
  forall cf tops lops st D sP tP i os ot,
  let tops' := SplitLife.member_tree tops in let S := split_links cf tops' lops in
  unit_env cf tops lops -> clife cf tops' lops st D sP tP ->
  D i = Some (os, ot) -> readable D tP i = true ->
  sP i <> home D tP os \/ (tree_lone D sP i /\ tP i <> home D tP ot) ->
  unit_env cf tops' lops /\
  (forall s t H (h : whandler H) x, li_update S H h [i] [i; s; t] st x = Panic) /\
  (users_lone D sP tP i -> forall H (h : whandler H) x, li_delete S H h [i] st x = Panic).
Proof. exact L_C86_stray. Qed.
Print Assumptions C86_stray.

(** Deleting the last link, if the highest stored link left cannot be read: the loop that lowers
    [allocated] takes that link for an unused one and detaches it from the list of unused links,
    which does not have it.  With a list that checks this, the call panics. *)
Theorem C86_uncovered :
  forall cf tops lops st D sP tP i os ot l,
  let lops' := AfterCrash.checked_list lops in let S := split_links cf tops lops' in
  unit_env cf tops lops -> clife cf tops lops' st D sP tP -> may_update D sP tP i os ot -> users_lone D sP tP i ->
  i = sh_alloc st -> l <> i -> D l <> None -> readable D tP l = false -> (forall k, l < k -> k <> i -> D k = None) ->
  unit_env cf tops lops' /\
  forall H (h : whandler H) x, li_delete S H h [i] st x = Panic.
Proof. exact L_C86_uncovered. Qed.
Print Assumptions C86_uncovered.

(** Every store with a history without interruptions is the start of a life, in which exactly the
    links are stored.  A link that shares its pair with no other may be updated, and deleted if
    the same is true of the links that refer to it. *)
Theorem C86_start :
  forall cf tops lops st d,
  let S := split_links cf tops lops in
  unit_env cf tops lops -> s_hist cf tops lops st d ->
  exists D sP tP, clife cf tops lops st D sP tP /\
    (forall i s t, D i = Some (s, t) <-> is_link S st i s t) /\
    forall i os ot, is_link S st i os ot -> separable S st i ->
      may_update D sP tP i os ot /\
      ((forall j s t, is_link S st j s t -> j <> i -> s = i \/ t = i -> separable S st j) -> may_delete D sP tP i os ot).
Proof. exact L_C86_start. Qed.
Print Assumptions C86_start.

(** A life with a link that cannot be read, in which link 1 may be updated and deleted, and both
    may be interrupted again. *)
Theorem C86_nonvacuous :
  exists st D sP tP,
  clife ex_cf ref_tree_ops ref_list_ops st D sP tP /\ D 2 = Some (3, 1) /\ tP 2 = Out /\ sP 2 = home D tP 3 /\
  is_link ex_S st 1 1 1 /\ is_link ex_S st 3 2 1 /\ no_link ex_S st 2 /\
  may_update D sP tP 1 1 1 /\ may_delete D sP tP 1 1 1 /\
  (exists st1 st', s_delete_at ex_cf ref_tree_ops ref_list_ops st 1 1 1 (Resolving (MidTarget 0 3)) st1 /\ reopened ex_cf st1 st') /\
  (exists st1 st', s_stop ref_tree_ops st 1 1 1 3 3 3 = Val st1 /\ reopened ex_cf st1 st') /\
  (exists st1 st', s_create_point ex_cf ref_tree_ops ref_list_ops st st1 /\ reopened ex_cf st1 st' /\ is_link ex_S st' 4 0 0).
Proof. exact L_C86_nonvacuous. Qed.
Print Assumptions C86_nonvacuous.

(** The cases of [L_C86_stray] and [L_C86_uncovered]. *)
Theorem C86_outside_nonvacuous :
  (exists st D sP tP, clife ex_cf (SplitLife.member_tree ref_tree_ops) ref_list_ops st D sP tP /\ D 3 = Some (2, 1) /\
     readable D tP 3 = true /\ sP 3 <> home D tP 2 /\ users_lone D sP tP 3) /\
  (exists st D sP tP, clife ex_cf (SplitLife.member_tree ref_tree_ops) ref_list_ops st D sP tP /\ D 2 = Some (1, 3) /\
     readable D tP 2 = true /\ sP 2 = home D tP 1 /\ tree_lone D sP 2 /\ tP 2 <> home D tP 3 /\ users_lone D sP tP 2) /\
  (exists st D sP tP, clife ex_cf ref_tree_ops (AfterCrash.checked_list ref_list_ops) st D sP tP /\ may_update D sP tP 3 3 1 /\
     users_lone D sP tP 3 /\ sh_alloc st = 3 /\ D 2 <> None /\ readable D tP 2 = false /\ forall k, 2 < k -> k <> 3 -> D k = None).
Proof. exact L_C86_outside_nonvacuous. Qed.
Print Assumptions C86_outside_nonvacuous.

(** A link that get does not show is found by its source and counted, and searching its pair is
    undefined behaviour. *)
Theorem C86_refuted :
  exists st D sP tP, let any := c_any ex_cf in
  clife ex_cf ref_tree_ops ref_list_ops st D sP tP /\ no_link ex_S st 2 /\
  (forall H (h : rhandler H) x, li_each ex_S H h [any; 3; any] st x = Val (run_handler h [mkLink 2 3 1] x)) /\
  li_count ex_S st [] = Val 3 /\
  (forall H (h : rhandler H) x, li_each ex_S H h [] st x = Val (run_handler h [mkLink 1 1 1; mkLink 3 2 1] x)) /\
  (forall H (h : rhandler H) x, li_each ex_S H h [any; 3; 1] st x = UB).
Proof. exact L_C86_refuted. Qed.
Print Assumptions C86_refuted.
