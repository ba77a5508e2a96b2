(** Using a store that was reopened from interrupted calls (C82). *)
From Coq Require Import NArith List Bool Lia Permutation.
From Verif Require Import AfterCrash Base Trees Lists TreeInv Spec Iface UnitModel UnitInv UnitOps UnitLinks
  Doublets DoubletsOK Obs Hist Claims TreeImpl UnitHist Crash CrashWrites CrashClaims Scars.
From Verif Require SplitInv.
Import ListNotations.
Open Scope N_scope.

(** An interrupted update can always be continued from by opening the memory again. *)
Theorem C82_points_exist :
  forall cf tops lops st L C i os ot s t p orc,
  let U := unit_links cf tops lops in
  unit_env cf tops lops -> life cf tops lops st L C -> in_step cf st ->
  is_link U st i os ot -> may_change cf tops lops st L C i ->
  c_step cf - 1 <= c_tmax cf -> orc 0%nat (c_page cf) = true -> orc 1%nat (c_step cf) = true ->
  exists st1 st2, at_point tops st i os ot s t p st1 /\ u_open cf (u_persist st1 orc) = Val (Ok st2).
Proof. exact L_C82_points_exist. Qed.
Print Assumptions C82_points_exist.

(** A lost link stays lost: it cannot be read, changed or deleted. *)
Theorem C82_lost :
  forall cf tops lops st L C i s t g,
  let U := unit_links cf tops lops in
  unit_env cf tops lops -> life cf tops lops st L C -> L i s t g ->
  no_link U st i /\
  (forall x y H (h : whandler H) z, li_update U H h [i] [i; x; y] st z = Val (st, z, Err (NotExists i))) /\
  (forall H (h : whandler H) z, li_delete U H h [i] st z = Val (st, z, Err (NotExists i))).
Proof. exact L_C82_lost. Qed.
Print Assumptions C82_lost.

(** A creation takes an index that neither a link nor a lost link has. *)
Theorem C82_create :
  forall cf tops lops st L C q,
  let U := unit_links cf tops lops in
  unit_env cf tops lops -> cfg_room cf -> life cf tops lops st L C ->
  ((forall i, 1 <= i <= c_iend cf -> linked U st i \/ exists s t g, L i s t g) /\
     fails_with (fun H h x => li_create U H h q st x) st (LimitReached (c_iend cf))) \/
  (exists st', same_links U st st' /\ life cf tops lops st' L C /\ fails_with (fun H h x => li_create U H h q st x) st' AllocFailed) \/
  (exists st' i, creates cf U st st' i /\ (forall s t g, ~ L i s t g) /\ life cf tops lops st' L C /\
     calls_once (fun H h x => li_create U H h q st x) st' nothing (mkLink i 0 0)).
Proof. exact L_C82_create. Qed.
Print Assumptions C82_create.

(** An update of a link that is in both trees writes it and leaves the rest alone. *)
Theorem C82_update :
  forall cf tops lops st L C i os ot s t,
  let U := unit_links cf tops lops in
  unit_env cf tops lops -> life cf tops lops st L C -> is_link U st i os ot -> may_change cf tops lops st L C i ->
  exists st', is_link U st' i s t /\ frame U st st' i /\ life cf tops lops st' L C /\
    calls_once (fun H h x => li_update U H h [i] [i; s; t] st x) st' (mkLink i s t) (mkLink i s t).
Proof. exact L_C82_update. Qed.
Print Assumptions C82_update.

(** Interrupting a creation, wherever the process stops, creates the link or nothing. *)
Theorem C82_stopped_create :
  forall cf tops lops st L C st1 orc st',
  let U := unit_links cf tops lops in
  unit_env cf tops lops -> cfg_room cf -> life cf tops lops st L C -> create_point cf lops st st1 -> in_step cf st1 ->
  u_open cf (u_persist st1 orc) = Val (Ok st') ->
  life cf tops lops st' L C /\
  (same_links U st st' \/ exists i, creates cf U st st' i /\ forall s t g, ~ L i s t g).
Proof. exact L_C82_stopped_create. Qed.
Print Assumptions C82_stopped_create.

(** Interrupting a deletion after its update is complete leaves the link empty or removes it, and
    leaves the rest alone, but for one free slot that may be shown as an empty link. *)
Theorem C82_stopped_delete_partial :
  forall cf tops lops st L C i os ot p st1 orc st',
  let U := unit_links cf tops lops in
  unit_env cf tops lops -> life cf tops lops st L C -> is_link U st i os ot -> may_change cf tops lops st L C i ->
  covered cf tops lops st L i -> delete_at tops lops st i os ot p st1 -> in_step cf st1 ->
  u_open cf (u_persist st1 orc) = Val (Ok st') ->
  life cf tops lops st' L C /\
  match p with
  | Zeroed => is_link U st' i 0 0 /\ frame U st st' i
  | Listed | Trimming _ => no_link U st' i /\ frame U st st' i
  | Detaching _ => no_link U st' i /\ exists k, 1 <= k < i /\ no_link U st k /\ (forall s t g, ~ L k s t g) /\
      is_link U st' k 0 0 /\ forall j, j <> i -> j <> k -> li_get U st' j = li_get U st j
  end.
Proof. exact L_C82_stopped_delete_partial. Qed.
Print Assumptions C82_stopped_delete_partial.

(** So does a deletion, as long as something remains above every lost link below it. *)
Theorem C82_delete_partial :
  forall cf tops lops st L C i os ot,
  let U := unit_links cf tops lops in
  unit_env cf tops lops -> life cf tops lops st L C -> is_link U st i os ot -> may_change cf tops lops st L C i ->
  covered cf tops lops st L i ->
  exists st', no_link U st' i /\ frame U st st' i /\ life cf tops lops st' L C /\
    calls_once (fun H h x => li_delete U H h [i] st x) st' (mkLink i os ot) nothing.
Proof. exact L_C82_delete_partial. Qed.
Print Assumptions C82_delete_partial.

(** count counts the lost links, each visits the others. *)
Theorem C82_count :
  forall cf tops lops st L C q,
  let U := unit_links cf tops lops in let any := c_any cf in
  unit_env cf tops lops -> life cf tops lops st L C ->
  q = [] \/ q = [any] \/ q = [any; any] \/ q = [any; any; any] ->
  exists V W, all_links U st V /\ NoDup W /\ (forall i, In i W <-> exists s t g, L i s t g) /\
    (forall H (h : rhandler H) x, li_each U H h q st x = Val (run_handler h V x)) /\
    li_count U st q = Val (N.of_nat (length V + length W)).
Proof. exact L_C82_count. Qed.
Print Assumptions C82_count.

(** A query by source visits the links with that source; a query by target visits the links
    with that target that the tree of targets has, and lost links that it still has. *)
Theorem C82_by_source :
  forall cf tops lops st L C s,
  let U := unit_links cf tops lops in
  unit_env cf tops lops -> life cf tops lops st L C -> s <> 0 -> s <> c_any cf ->
  exists V, NoDup V /\ (forall l, In l V <-> is_link U st (l_index l) (l_source l) (l_target l) /\ l_source l = s) /\
    (forall H (h : rhandler H) x, li_each U H h [c_any cf; s; c_any cf] st x = Val (run_handler h V x)) /\
    li_count U st [c_any cf; s; c_any cf] = Val (N.of_nat (length V)).
Proof. exact L_C82_by_source. Qed.
Print Assumptions C82_by_source.

Theorem C82_by_target :
  forall cf tops lops st L C t,
  let U := unit_links cf tops lops in
  unit_env cf tops lops -> life cf tops lops st L C -> t <> 0 -> t <> c_any cf ->
  exists V, NoDup V /\
    (forall l, In l V <-> l_target l = t /\
       ((is_link U st (l_index l) (l_source l) (l_target l) /\ ~ C (l_index l)) \/ L (l_index l) (l_source l) (l_target l) true)) /\
    (forall H (h : rhandler H) x, li_each U H h [c_any cf; c_any cf; t] st x = Val (run_handler h V x)) /\
    li_count U st [c_any cf; c_any cf; t] = Val (N.of_nat (length V)).
Proof. exact L_C82_by_target. Qed.
Print Assumptions C82_by_target.

(** A query for either end visits the former, then the latter. *)
Theorem C82_either_end :
  forall cf tops lops st L C v,
  let U := unit_links cf tops lops in
  unit_env cf tops lops -> cfg_room cf -> life cf tops lops st L C -> v <> 0 -> v <> c_any cf ->
  exists V1 V2, NoDup V1 /\ NoDup V2 /\
    (forall l, In l V1 <-> is_link U st (l_index l) (l_source l) (l_target l) /\ l_source l = v) /\
    (forall l, In l V2 <-> l_target l = v /\
       ((is_link U st (l_index l) (l_source l) (l_target l) /\ ~ C (l_index l)) \/ L (l_index l) (l_source l) (l_target l) true)) /\
    (forall H (h : rhandler H) x, li_each U H h [c_any cf; v] st x = Val (run_handler h (V1 ++ V2) x)) /\
    li_count U st [c_any cf; v] = Val (N.of_nat (length (V1 ++ V2))).
Proof. exact L_C82_either_end. Qed.
Print Assumptions C82_either_end.

(** A query for one index visits that link if it is shown and matches. *)
Theorem C82_by_index :
  forall cf tops lops st L C i q,
  let U := unit_links cf tops lops in
  unit_env cf tops lops -> life cf tops lops st L C -> i <> c_any cf ->
  q = [i] \/ (exists v, q = [i; v]) \/ (exists s t, q = [i; s; t]) ->
  (forall l, li_get U st i = Val (Some l) -> query_match (c_any cf) q l ->
     (forall H (h : rhandler H) x, li_each U H h q st x = Val (h x l)) /\ li_count U st q = Val 1) /\
  ((forall l, li_get U st i = Val (Some l) -> ~ query_match (c_any cf) q l) ->
     (forall H (h : rhandler H) x, li_each U H h q st x = Val (x, Continue)) /\ li_count U st q = Val 0).
Proof. exact L_C82_by_index. Qed.
Print Assumptions C82_by_index.

(** A search finds a link with the pair unless there is none; lost links are not found. *)
Theorem C82_search :
  forall cf tops lops st L C s t,
  let U := unit_links cf tops lops in
  unit_env cf tops lops -> life cf tops lops st L C -> s <> 0 -> s <> c_any cf -> t <> c_any cf ->
  (exists i, is_link U st i s t /\
     (forall H (h : rhandler H) x, li_each U H h [c_any cf; s; t] st x = Val (h x (mkLink i s t))) /\
     li_count U st [c_any cf; s; t] = Val 1) \/
  ((forall i, ~ is_link U st i s t) /\
   (forall H (h : rhandler H) x, li_each U H h [c_any cf; s; t] st x = Val (x, Continue)) /\
   li_count U st [c_any cf; s; t] = Val 0).
Proof. exact L_C82_search. Qed.
Print Assumptions C82_search.

(** Deleting the topmost link when the first thing below it is a lost link makes the store
    detach the lost link from the free list it is not in. *)
Theorem C82_uncovered :
  forall cf tops lops st L C i l,
  let lops' := checked_list lops in let U := unit_links cf tops lops' in
  unit_env cf tops lops -> life cf tops lops' st L C -> linked U st i -> may_change cf tops lops' st L C i ->
  i = h_alloc st -> l < i -> (exists s t g, L l s t g) ->
  (forall k, l < k -> k <> i -> no_link U st k /\ forall s t g, ~ L k s t g) ->
  unit_env cf tops lops' /\
  forall H (h : whandler H) x, li_delete U H h [i] st x = Panic.
Proof. exact L_C82_uncovered. Qed.
Print Assumptions C82_uncovered.

(** Updating or deleting a link that is missing from the tree of targets makes the store detach
    it from that tree. *)
Theorem C82_stray :
  forall cf tops lops st L C i,
  let tops' := checked_tree tops in let U := unit_links cf tops' lops in
  unit_env cf tops lops -> life cf tops' lops st L C -> linked U st i -> separable U st i -> C i ->
  unit_env cf tops' lops /\
  (forall s t H (h : whandler H) x, li_update U H h [i] [i; s; t] st x = Panic) /\
  (forall H (h : whandler H) x, li_delete U H h [i] st x = Panic).
Proof. exact L_C82_stray. Qed.
Print Assumptions C82_stray.

(** The deletion of a link that is in both trees, with no other link or lost link of the same
    pair, can change another link: what is asked above of the links that remain is needed. *)
Theorem C82_refuted :
  exists st L C st',
  life ex_cf ref_tree_ops ref_list_ops st L C /\ may_change ex_cf ref_tree_ops ref_list_ops st L C 3 /\
  is_link ex_U st 3 1 2 /\ is_link ex_U st 1 1 1 /\
  d_delete ex_U 3 st = Val (st', Ok 0) /\ is_link ex_U st' 1 1 3.
Proof. exact L_C82_refuted. Qed.
Print Assumptions C82_refuted.

(** The same store with lists that refuse such a request is one of the stores of
    [L_C82_uncovered]. *)
Theorem C82_uncovered_nonvacuous :
  exists st L C,
  let lops' := checked_list ref_list_ops in let U := unit_links ex_cf ref_tree_ops lops' in
  life ex_cf ref_tree_ops lops' st L C /\ linked U st 3 /\ may_change ex_cf ref_tree_ops lops' st L C 3 /\ 3 = h_alloc st /\
  (exists s t g, L 2 s t g) /\ (forall k, 2 < k -> k <> 3 -> no_link U st k /\ forall s t g, ~ L k s t g).
Proof. exact L_C82_uncovered_nonvacuous. Qed.
Print Assumptions C82_uncovered_nonvacuous.

Theorem C82_nonvacuous :
  (exists st L C, life ex_cf ref_tree_ops ref_list_ops st L C /\ L 2 1 3 true /\ C 3 /\ is_link ex_U st 3 3 3 /\
     is_link ex_U st 4 4 4 /\ may_change ex_cf ref_tree_ops ref_list_ops st L C 4 /\ is_link ex_U st 1 1 1 /\
     may_change ex_cf ref_tree_ops ref_list_ops st L C 1 /\ covered ex_cf ref_tree_ops ref_list_ops st L 4 /\
     in_step ex_cf st /\ no_link ex_U st 2) /\
  exists st L C, let tops' := checked_tree ref_tree_ops in let U := unit_links ex_cf tops' ref_list_ops in
    life ex_cf tops' ref_list_ops st L C /\ linked U st 3 /\ separable U st 3 /\ C 3.
Proof. exact L_C82_nonvacuous. Qed.
Print Assumptions C82_nonvacuous.

Theorem C82_stopped_nonvacuous :
  exists st L C,
  life ex_cf ref_tree_ops ref_list_ops st L C /\ is_link ex_U st 5 5 5 /\ may_change ex_cf ref_tree_ops ref_list_ops st L C 5 /\
  covered ex_cf ref_tree_ops ref_list_ops st L 5 /\ L 2 1 3 true /\ no_link ex_U st 4 /\
  (exists st1 orc st', delete_at ref_tree_ops ref_list_ops st 5 5 5 (Trimming 0) st1 /\ in_step ex_cf st1 /\
     u_open ex_cf (u_persist st1 orc) = Val (Ok st') /\ h_alloc st' = 4 /\ no_link ex_U st' 4) /\
  (exists st1 orc st', delete_at ref_tree_ops ref_list_ops st 5 5 5 (Detaching 0) st1 /\ in_step ex_cf st1 /\
     u_open ex_cf (u_persist st1 orc) = Val (Ok st') /\ is_link ex_U st' 4 0 0) /\
  exists st1 orc st', create_point ex_cf ref_list_ops st st1 /\ in_step ex_cf st1 /\
    u_open ex_cf (u_persist st1 orc) = Val (Ok st') /\ is_link ex_U st' 4 0 0.
Proof. exact L_C82_stopped_nonvacuous. Qed.
Print Assumptions C82_stopped_nonvacuous.
