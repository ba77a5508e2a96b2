(** The methods the trees and lists are operated through (C75, C76). *)
From Coq Require Import NArith List Bool String Lia.
From Verif Require Import Accessors Base Trees Lists TreeImpl UnitModel SplitModel UnitHist SplitHist Layout.
Import ListNotations.
Open Scope N_scope.

(** Every algorithm over the accessors does to the memory of the store what it does to the bare
    tree: same result or same failure, the column and the root changed as there, all else as before. *)
Theorem C75_unit :
  forall (st : ust) A (p : prog A),
  agree (fun c r => u_mem (set_src st (set_sroot c r)))
    (on_tree (u_len st) (u_len st) (key_src (u_data st)) p (u_src st) (h_sroot st)) (on_memory us_acc us_root p (u_mem st)) /\
  agree (fun c r => u_mem (set_tgt st (set_troot c r)))
    (on_tree (u_len st) (u_len st) (key_tgt (u_data st)) p (u_tgt st) (h_troot st)) (on_memory ut_acc ut_root p (u_mem st)).
Proof. exact L_C75_unit. Qed.
Print Assumptions C75_unit.

Theorem C75_split :
  forall (st : sst) v A (p : prog A),
  agree (fun c r => s_mem (s_set_src st (upd (s_rs st) v r) c))
    (on_tree (s_dlen st) (s_ilen st) (key_is (s_data st)) p (s_is st) (s_rs st v)) (on_memory is_acc (is_root v) p (s_mem st)) /\
  agree (fun c r => s_mem (s_set_tgt st (upd (s_rt st) v r) c))
    (on_tree (s_dlen st) (s_ilen st) (key_it (s_data st)) p (s_it st) (s_rt st v)) (on_memory it_acc (it_root v) p (s_mem st)) /\
  agree (fun c r => s_mem (s_set_tgt (s_set_src st (s_rs st) c) (upd (s_rt st) 0 r) (s_it st)))
    (on_tree (s_dlen st) (s_ilen st) (key_src (s_data st)) p (s_is st) (sh_sroot st)) (on_memory es_acc es_root p (s_mem st)) /\
  agree (fun c r => s_mem (s_set_tgt st (s_rt st) (set_troot c r)))
    (on_tree (s_dlen st) (s_ilen st) (key_tgt (s_data st)) p (s_it st) (sh_troot st)) (on_memory et_acc et_root p (s_mem st)).
Proof. exact L_C75_split. Qed.
Print Assumptions C75_split.

Theorem C75_unit_steps :
  forall (tops : tree_ops) (p : prog unit) (st st' : ust) i,
  let on k c r op := computes p (u_len st) (u_len st) (k (u_data st)) c r (op (k (u_data st)) c r i) in
  let runs acc root := exists m, on_memory acc root p (u_mem st) = Val (tt, m) /\ same_mem m (u_mem st') in
  (on key_src (u_src st) (h_sroot st) (t_attach tops) -> u_attach_source tops st i = Val st' -> runs us_acc us_root) /\
  (on key_src (u_src st) (h_sroot st) (t_detach tops) -> u_detach_source tops st i = Val st' -> runs us_acc us_root) /\
  (on key_tgt (u_tgt st) (h_troot st) (t_attach tops) -> u_attach_target tops st i = Val st' -> runs ut_acc ut_root) /\
  (on key_tgt (u_tgt st) (h_troot st) (t_detach tops) -> u_detach_target tops st i = Val st' -> runs ut_acc ut_root).
Proof. exact L_C75_unit_steps. Qed.
Print Assumptions C75_unit_steps.

Theorem C75_split_steps :
  forall (tops : tree_ops) (p : prog unit) (st st' : sst) v i,
  let on k c r op := computes p (s_dlen st) (s_ilen st) (k (s_data st)) c r (op (k (s_data st)) c r i) in
  let runs acc root := exists m, on_memory acc root p (s_mem st) = Val (tt, m) /\ same_mem m (s_mem st') in
  (on key_is (s_is st) (s_rs st v) (t_attach tops) -> s_attach_is tops st v i = Val st' -> runs is_acc (is_root v)) /\
  (on key_is (s_is st) (s_rs st v) (t_detach tops) -> s_detach_is tops st v i = Val st' -> runs is_acc (is_root v)) /\
  (on key_it (s_it st) (s_rt st v) (t_attach tops) -> s_attach_it tops st v i = Val st' -> runs it_acc (it_root v)) /\
  (on key_it (s_it st) (s_rt st v) (t_detach tops) -> s_detach_it tops st v i = Val st' -> runs it_acc (it_root v)) /\
  (on key_src (s_is st) (sh_sroot st) (t_attach tops) -> s_attach_es tops st i = Val st' -> runs es_acc es_root) /\
  (on key_src (s_is st) (sh_sroot st) (t_detach tops) -> s_detach_es tops st i = Val st' -> runs es_acc es_root) /\
  (on key_tgt (s_it st) (sh_troot st) (t_attach tops) -> s_attach_et tops st i = Val st' -> runs et_acc et_root) /\
  (on key_tgt (s_it st) (sh_troot st) (t_detach tops) -> s_detach_et tops st i = Val st' -> runs et_acc et_root).
Proof. exact L_C75_split_steps. Qed.
Print Assumptions C75_split_steps.

Theorem C75_frame :
  forall acc s rootw A (p : prog A) m m' a,
  In (acc, s) trees_shapes -> on_memory acc rootw p m = Val (a, m') ->
  m_data m' = m_data m /\ sl_len (m_index m') = sl_len (m_index m) /\
  forall w, w <> rootw ->
    (forall n f, In f [sh_l s; sh_r s; sh_z s] -> n < sl_len (m_index m) -> w <> word_at (sh_fs s) n f) ->
    sl_w (m_index m') w = sl_w (m_index m) w.
Proof. exact L_C75_frame. Qed.
Print Assumptions C75_frame.

(** Going through a pointer is the same as calling the method. *)
Theorem C75_pointers :
  forall acc s rootw A n v (k : N -> prog A) (k' : prog A) m,
  In (acc, s) trees_shapes ->
  on_memory acc rootw (Read (LeftOf n) k) m = on_memory acc rootw (GetLeft n k) m /\
  on_memory acc rootw (Read (RightOf n) k) m = on_memory acc rootw (GetRight n k) m /\
  on_memory acc rootw (Write (LeftOf n) v k') m = on_memory acc rootw (SetLeft n v k') m /\
  on_memory acc rootw (Write (RightOf n) v k') m = on_memory acc rootw (SetRight n v k') m.
Proof. exact L_C75_pointers. Qed.
Print Assumptions C75_pointers.

(** The comparisons of each tree are a strict total order of the keys; nodes with the same source
    (target) are next to each other in the trees of sources (targets). *)
Theorem C75_order :
  forall m a b c,
  let U f i := sl_w (m_index m) (word_at link_fields i f) in
  let D f i := sl_w (m_data m) (word_at data_fields i f) in
  let ordered acc (same : N -> N -> Prop) (major : N -> N) := forall x y z,
    a_left_of acc m a b = Val x -> a_left_of acc m b c = Val y -> a_left_of acc m a c = Val z ->
    a_right_of acc m b a = Val x /\
    (x = true -> y = true -> z = true) /\ (x = false -> y = false -> z = false) /\
    (x = true -> a_left_of acc m b a = Val false) /\
    (a_left_of acc m b a = Val false -> x = false -> same a b) /\ (same a b -> x = false) /\
    (x = true -> major a <= major b) in
  ordered us_acc (fun i j => U "source"%string i = U "source"%string j /\ U "target"%string i = U "target"%string j) (U "source"%string) /\
  ordered ut_acc (fun i j => U "source"%string i = U "source"%string j /\ U "target"%string i = U "target"%string j) (U "target"%string) /\
  ordered is_acc (fun i j => D "target"%string i = D "target"%string j) (D "target"%string) /\
  ordered it_acc (fun i j => D "source"%string i = D "source"%string j) (D "source"%string) /\
  ordered es_acc (fun i j => D "source"%string i = D "source"%string j /\ D "target"%string i = D "target"%string j) (D "source"%string) /\
  ordered et_acc (fun i j => D "source"%string i = D "source"%string j /\ D "target"%string i = D "target"%string j) (D "target"%string).
Proof. exact L_C75_order. Qed.
Print Assumptions C75_order.

Theorem C75_nonvacuous :
  u_len ex_out = 8 /\ u_attach_source ex_ops ex_out 3 <> Panic /\
  computes (insert_at 8 Root 3) 8 8 (key_src (u_data ex_out)) (u_src ex_out) (h_sroot ex_out)
    (t_attach ex_ops (key_src (u_data ex_out)) (u_src ex_out) (h_sroot ex_out) 3) /\
  exists m1 m2, on_memory us_acc us_root (insert_at 8 Root 3) (u_mem ex_out) = Val (tt, m1) /\
    on_memory ut_acc ut_root (insert_at 8 Root 3) m1 = Val (tt, m2) /\
    map (u_words ex_out) (map N.of_nat (seq 0 32)) =
      [3; 7; 0; 0; 1; 1; 0; 0;  1; 1; 0; 2; 2; 0; 2; 2;  1; 2; 0; 0; 1; 0; 0; 1;  2; 1; 0; 0; 0; 0; 0; 0] /\
    map (sl_w (m_index m2)) (map N.of_nat (seq 0 32)) =
      [3; 7; 0; 0; 1; 1; 0; 0;  1; 1; 0; 2; 3; 0; 2; 3;  1; 2; 0; 3; 2; 3; 0; 2;  2; 1; 0; 0; 1; 0; 0; 1] /\
    map (sl_w (m_index m2)) (map N.of_nat (seq 0 32)) = map (u_words (ex_st ex3)) (map N.of_nat (seq 0 32)).
Proof. exact L_C75_nonvacuous. Qed.
Print Assumptions C75_nonvacuous.

(** 0 is not a node: in the single memory its size as a source is the root of the tree of sources,
    and its left as a target the root of the tree of targets. *)
Theorem C75_zero_node :
  forall (st : ust) v,
  0 < u_len st ->
  (exists m, on_memory us_acc us_root (SetSize 0 v (Read Root (fun r => Done (Val r)))) (u_mem st) = Val (v, m)) /\
  (exists m, on_memory ut_acc ut_root (SetLeft 0 v (Read Root (fun r => Done (Val r)))) (u_mem st) = Val (v, m)).
Proof. exact L_C75_zero_node. Qed.
Print Assumptions C75_zero_node.

Theorem C75_split_nonvacuous :
  exists m, on_memory is_acc (is_root 1) (insert_at 8 Root 2) (s_mem ex_sout) = Val (tt, m) /\
    map (s_iwords ex_sout) (map N.of_nat (seq 8 16)) = [1; 0; 0; 1; 1; 0; 3; 2;  3; 0; 0; 0; 2; 0; 0; 1] /\
    map (sl_w (m_index m)) (map N.of_nat (seq 0 32)) = map (s_iwords (ex_sst ex3)) (map N.of_nat (seq 0 32)) /\
    map (s_iwords (ex_sst ex3)) (map N.of_nat (seq 8 16)) = [1; 0; 2; 2; 1; 0; 3; 2;  3; 0; 0; 1; 2; 0; 0; 1].
Proof. exact L_C75_split_nonvacuous. Qed.
Print Assumptions C75_split_nonvacuous.

(** Every algorithm over the methods of the free list does to the memory of the store what it does
    to the bare list, and the rest of the memory stays. *)
Theorem C76_lists :
  forall A (p : lprog A),
  (forall st : ust, 0 < u_len st ->
     lagree (fun h d => u_mem (set_lhdr st h d)) (on_list (u_len st) p (u_lhdr st) (u_data st)) (list_on_memory ul_acc p (u_mem st))) /\
  (forall st : sst, 0 < s_ilen st ->
     lagree (fun h d => s_mem (s_set_lhdr st h d)) (on_list (s_dlen st) p (s_lhdr st) (s_data st)) (list_on_memory sl_acc p (s_mem st))).
Proof. exact L_C76_lists. Qed.
Print Assumptions C76_lists.

Theorem C76_unit_steps :
  forall (lops : list_ops) (p : lprog unit) (st st' : ust) i,
  0 < u_len st ->
  let on op := lcomputes p (u_len st) (u_lhdr st) (u_data st) (op (u_lhdr st) (u_data st) i) in
  let runs := exists m, list_on_memory ul_acc p (u_mem st) = Val (tt, m) /\ same_mem m (u_mem st') in
  (on (l_attach lops) -> u_unused_attach lops st i = Val st' -> runs) /\ (on (l_detach lops) -> u_unused_detach lops st i = Val st' -> runs).
Proof. exact L_C76_unit_steps. Qed.
Print Assumptions C76_unit_steps.

Theorem C76_split_steps :
  forall (lops : list_ops) (p : lprog unit) (st st' : sst) i,
  0 < s_ilen st ->
  let on op := lcomputes p (s_dlen st) (s_lhdr st) (s_data st) (op (s_lhdr st) (s_data st) i) in
  let runs := exists m, list_on_memory sl_acc p (s_mem st) = Val (tt, m) /\ same_mem m (s_mem st') in
  (on (l_attach lops) -> s_unused_attach lops st i = Val st' -> runs) /\ (on (l_detach lops) -> s_unused_detach lops st i = Val st' -> runs).
Proof. exact L_C76_split_steps. Qed.
Print Assumptions C76_split_steps.

(** Whatever runs, even with 0 as an element, only first_free, last_free and free of the header and
    the source and target of slots can change: no field of a tree, no root, and in the split store
    neither allocated nor reserved. *)
Theorem C76_frame :
  forall A (p : lprog A) m m' a,
  let H f := word_at header_fields 0 f in
  (list_on_memory ul_acc p m = Val (a, m') -> m_data m' = m_data m /\ sl_len (m_index m') = sl_len (m_index m) /\
     forall w, ~ In w [H "first_free"; H "last_free"; H "free"]%string ->
       (forall n f, In f ["source"; "target"]%string -> n < sl_len (m_index m) -> w <> word_at link_fields n f) ->
       sl_w (m_index m') w = sl_w (m_index m) w) /\
  (list_on_memory sl_acc p m = Val (a, m') -> sl_len (m_data m') = sl_len (m_data m) /\ sl_len (m_index m') = sl_len (m_index m) /\
     (forall w, ~ In w [H "first_free"; H "last_free"; H "free"]%string -> sl_w (m_index m') w = sl_w (m_index m) w) /\
     forall w, 2 * sl_len (m_data m) <= w -> sl_w (m_data m') w = sl_w (m_data m) w).
Proof. exact L_C76_frame. Qed.
Print Assumptions C76_frame.

(** On every ring in the memory they are the operations the models are run with, so the hypotheses
    of the steps above can be met for the operations the contract is met by. *)
Theorem C76_realised :
  forall len h d l x,
  lrep h d l -> (forall y, In y l -> y < len) -> x <> 0 -> x < len ->
  (forall h' d', l_attach ref_list_ops h d x = Val (h', d') -> ~ In x l ->
     exists d2, on_list len (attach_first x) h d = Val (tt, h', d2) /\ forall i, d2 i = d' i) /\
  (forall h' d', l_detach ref_list_ops h d x = Val (h', d') -> In x l ->
     exists d2, on_list len (detach x) h d = Val (tt, h', d2) /\ forall i, d2 i = d' i).
Proof. exact L_C76_realised. Qed.
Print Assumptions C76_realised.

Theorem C76_nonvacuous :
  let st := ex_st ex_free in let ss := ex_sst ex_free in
  0 < u_len st /\ 0 < s_ilen ss /\
  lrep (u_lhdr st) (u_data st) [4; 3; 2] /\ lrep (s_lhdr ss) (s_data ss) [4; 3; 2] /\ u_len st = 8 /\ s_dlen ss = 8 /\
  lcomputes (detach 3) (u_len st) (u_lhdr st) (u_data st) (l_detach ex_lops (u_lhdr st) (u_data st) 3) /\
  (exists m1 m2, list_on_memory ul_acc (detach 3) (u_mem st) = Val (tt, m1) /\ list_on_memory ul_acc (attach_first 3) m1 = Val (tt, m2) /\
     map (u_words st) (map N.of_nat (seq 0 8)) = [5; 7; 3; 4; 1; 1; 2; 0] /\
     map (fun i => (sl_w (m_index m1) (8 * i), sl_w (m_index m1) (8 * i + 1))) [2; 3; 4] = [(4, 4); (0, 0); (2, 2)] /\
     map (sl_w (m_index m2)) (map N.of_nat (seq 0 8)) = [5; 7; 3; 3; 1; 1; 2; 0] /\
     map (fun i => (sl_w (m_index m2) (8 * i), sl_w (m_index m2) (8 * i + 1))) [2; 3; 4] = [(4, 3); (2, 4); (3, 2)]) /\
  (exists m1 m2, list_on_memory sl_acc (detach 3) (s_mem ss) = Val (tt, m1) /\ list_on_memory sl_acc (attach_first 3) m1 = Val (tt, m2) /\
     map (s_iwords ss) (map N.of_nat (seq 0 8)) = [5; 7; 3; 4; 0; 0; 2; 0] /\
     map (sl_w (m_index m2)) (map N.of_nat (seq 0 8)) = [5; 7; 3; 3; 0; 0; 2; 0] /\
     map (fun i => (sl_w (m_data m2) (2 * i), sl_w (m_data m2) (2 * i + 1))) [2; 3; 4] = [(4, 3); (2, 4); (3, 2)]).
Proof. exact L_C76_nonvacuous. Qed.
Print Assumptions C76_nonvacuous.
