(** Property C64: the list of the usages of a source. *)
From Coq Require Import PeanoNat NArith List Bool Lia.
From Verif Require Import SourceList Base Trees Lists Iface UnitModel SplitModel Obs TreeImpl UnitHist SplitHist.
Import ListNotations.
Open Scope N_scope.

(** The members of the list of a head are visited once each, in order; the walk needs no more
    rounds than it has members and stops when the handler breaks.  count_usages is their number. *)
Theorem C64_each_usages :
  forall st L i,
  lists st L -> 1 <= i -> i < s_ilen st ->
  (forall H (h : rhandler H) x fuel, (length (L i) < fuel)%nat ->
     sl_each_usages fuel st i h x = Val (run_handler h (map (link_of (s_data st)) (L i)) x)) /\
  sl_count_usages st i = Val (N.of_nat (length (L i))).
Proof. exact L_C64_each_usages. Qed.
Print Assumptions C64_each_usages.

(** get_first and get_last are the ends of the list although set_last does nothing. *)
Theorem C64_ends :
  forall st L i,
  lists st L -> 1 <= i -> i < s_ilen st ->
  sl_first st i = Val (hd 0 (L i)) /\ sl_last st i = Val (last (L i) 0).
Proof. exact L_C64_ends. Qed.
Print Assumptions C64_ends.

(** attach_as_first puts a cell that is in no list in front of the list of a head, detach
    takes a member out; both leave all other lists alone. *)
Theorem C64_attach_detach :
  forall lops st L i x,
  list_ops_ok lops -> lists st L -> 1 <= i -> i < s_ilen st ->
  1 <= x -> x < s_ilen st -> x < s_dlen st ->
  ((forall j, 1 <= j -> j < s_ilen st -> ~ In x (L j)) ->
     exists st', sl_attach lops st i x = Val st' /\ lists st' (upd L i (x :: L i)) /\
       s_data st' = s_data st /\ s_ilen st' = s_ilen st /\ s_dlen st' = s_dlen st) /\
  (In x (L i) ->
     exists st', sl_detach lops st i x = Val st' /\ lists st' (upd L i (remove N.eq_dec x (L i))) /\
       s_data st' = s_data st /\ s_ilen st' = s_ilen st /\ s_dlen st' = s_dlen st).
Proof. exact L_C64_attach_detach. Qed.
Print Assumptions C64_attach_detach.

(** A memory of zeroes holds the empty lists. *)
Theorem C64_zeroed :
  forall st,
  s_dlen st = s_dcap st ->
  (forall i, 1 <= i -> i < s_ilen st -> s_rs st i = 0 /\ s_is st i = nd0) -> lists st (fun _ => []).
Proof. exact L_C64_zeroed. Qed.
Print Assumptions C64_zeroed.

Theorem C64_ends_or_never :
  forall st i H (h : rhandler H) x fuel,
  (forall x v, snd (h x v) = Continue) ->
  (N.to_nat (s_ilen st) < fuel)%nat -> sl_each_usages fuel st i h x = Diverge ->
  forall fuel', sl_each_usages fuel' st i h x = Diverge.
Proof. exact L_C64_ends_or_never. Qed.
Print Assumptions C64_ends_or_never.

(** The lists of every history, and what the two reading functions make of them. *)
Theorem C64_histories :
  forall lops st L,
  list_ops_ok lops -> sl_hist lops st L ->
  lists st L /\
  forall i, 1 <= i -> i < s_ilen st ->
    (forall H (h : rhandler H) x,
       sl_each_usages (S (N.to_nat (s_ilen st))) st i h x = Val (run_handler h (map (link_of (s_data st)) (L i)) x)) /\
    sl_count_usages st i = Val (N.of_nat (length (L i))).
Proof. exact L_C64_histories. Qed.
Print Assumptions C64_histories.

Theorem C64_setters :
  forall st i x,
  1 <= i -> i < s_ilen st ->
  (exists st', sl_set_first st i x = Val st' /\ sl_first st' i = Val x /\ sl_unlike st st' (eq i) none none none) /\
  (exists st', sl_set_previous st i x = Val st' /\ sl_previous st' i = Val x /\ sl_unlike st st' none (eq i) none none) /\
  (exists st', sl_set_next st i x = Val st' /\ sl_next st' i = Val x /\ sl_unlike st st' none none (eq i) none) /\
  (exists st', sl_set_size st i x = Val st' /\ sl_size st' i = Val x /\ sl_unlike st st' none none none (eq i)) /\
  (exists st', sl_set_last st i x = Val st' /\ sl_unlike st st' none none none none).
Proof. exact L_C64_setters. Qed.
Print Assumptions C64_setters.

(** Outside the memory every getter and every setter but that of the last element panics. *)
Theorem C64_out_of_bounds :
  forall st i x,
  s_ilen st <= i ->
  sl_first st i = Panic /\ sl_previous st i = Panic /\ sl_next st i = Panic /\ sl_size st i = Panic /\ sl_last st i = Panic /\
  sl_set_first st i x = Panic /\ sl_set_previous st i x = Panic /\ sl_set_next st i x = Panic /\ sl_set_size st i x = Panic /\
  sl_set_last st i x = Val st.
Proof. exact L_C64_out_of_bounds. Qed.
Print Assumptions C64_out_of_bounds.

(** So do putting an element into a list and taking it out, whatever the list. *)
Theorem C64_attach_out_of_bounds :
  forall lops st head x,
  s_ilen st <= head \/ s_ilen st <= x ->
  sl_attach lops st head x = Panic /\ sl_detach lops st head x = Panic.
Proof. exact L_C64_attach_out_of_bounds. Qed.
Print Assumptions C64_attach_out_of_bounds.

Theorem C64_nonvacuous :
  exists st L, sl_hist ref_list_ops st L /\ L 1 = [6; 4; 2] /\ L 3 = [5] /\
  sl_each_usages 10 st 1 (fun v l => (v ++ [l], Continue)) [] = Val ([mkLink 6 6 7; mkLink 4 4 5; mkLink 2 2 3], Continue) /\
  sl_each_usages 10 st 1 (fun v l => (v ++ [l], if l_index l =? 4 then Break else Continue)) [] = Val ([mkLink 6 6 7; mkLink 4 4 5], Break) /\
  sl_count_usages st 1 = Val 3 /\ sl_last st 1 = Val 2.
Proof. exact L_C64_nonvacuous. Qed.
Print Assumptions C64_nonvacuous.

(** Outside these histories the walk need not end: a list that leads into a ring without its
    first member. *)
Theorem C64_broken_ring_never_ends :
  exists st, s_dlen st = s_dcap st /\
  forall fuel, sl_each_usages fuel st 1 (fun (n : N) _ => (n + 1, Continue)) 0 = Diverge.
Proof. exact L_C64_broken_ring_never_ends. Qed.
Print Assumptions C64_broken_ring_never_ends.

(** The memory of a store with sources trees is not such a memory: read as a list it shows
    only the right spine of the tree, and no usages are counted. *)
Theorem C64_tree_memory_is_no_list :
  exists st d, s_hist ex_cf ref_tree_ops ref_list_ops st d /\
  s_each ex_cf (fun v l => (v ++ [l_index l], Continue)) [200; 1; 200] st [] = Val ([4; 2; 3], Continue) /\
  sl_each_usages 100 st 1 (fun v l => (v ++ [l_index l], Continue)) [] = Val ([2; 3], Continue) /\
  sl_count_usages st 1 = Val 0.
Proof. exact L_C64_tree_memory_is_no_list. Qed.
Print Assumptions C64_tree_memory_is_no_list.
