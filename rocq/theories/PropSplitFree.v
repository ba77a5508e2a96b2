(** The default methods of a two-memory store used freely (C85). *)
From Coq Require Import NArith List Bool Lia Permutation Sorted.
From Verif Require Import SplitFree Base Trees Lists TreeInv Spec Iface UnitModel UnitInv UnitOps LinkModel SplitModel Forest
  SplitInv SplitReads SplitOps SplitWrites SplitLinks Doublets DoubletsOK Obs Hist Claims UnitHist TreeImpl SplitHist
  Decorators GoodStore DecoratorClaims Stacks SplitLife.
Import ListNotations.
Open Scope N_scope.

(** create_link gives a new link with the pair and changes no other.  Links that referred to the
    new index become misfiled. *)
Theorem C85_create_link_partial :
  forall cf tops lops st Ms Mt s t,
  let S := split_links cf tops lops in
  unit_env cf tops lops -> cfg_room cf -> slife cf tops lops st Ms Mt -> (t = 0 -> s = 0) ->
  not_created S st (d_create_link S s t st) \/
  exists st' n, adds cf S st st' n s t /\ d_create_link S s t st = Val (st', Ok n) /\
    slife cf tops lops st' (fun j => Ms j \/ exists t, is_link S st j n t) (fun j => Mt j \/ exists s, is_link S st j s n).
Proof. exact L_C85_create_link_partial. Qed.
Print Assumptions C85_create_link_partial.

Theorem C85_create_point :
  forall cf tops lops st Ms Mt,
  let S := split_links cf tops lops in
  unit_env cf tops lops -> cfg_room cf -> slife cf tops lops st Ms Mt ->
  not_created S st (d_create_point S st) \/
  exists st' n, adds cf S st st' n n n /\ d_create_point S st = Val (st', Ok n) /\
    slife cf tops lops st' (fun j => Ms j \/ exists t, is_link S st j n t) (fun j => Mt j \/ exists s, is_link S st j s n).
Proof. exact L_C85_create_point. Qed.
Print Assumptions C85_create_point.

(** get_or_create gives a link that has the pair, and makes a new one only if none has it or all
    that have it are misfiled. *)
Theorem C85_get_or_create :
  forall cf tops lops st Ms Mt s t,
  let S := split_links cf tops lops in
  unit_env cf tops lops -> slife cf tops lops st Ms Mt -> s <> 0 -> t <> 0 -> s <> c_any cf -> t <> c_any cf ->
  (exists i, is_link S st i s t /\ d_search cf S st s t = Val (Some i) /\ d_get_or_create cf S s t st = Val (st, Ok i)) \/
  ((forall i, is_link S st i s t -> Ms i \/ Mt i) /\ d_search cf S st s t = Val None /\
   d_get_or_create cf S s t st = d_create_link S s t st).
Proof. exact L_C85_get_or_create. Qed.
Print Assumptions C85_get_or_create.

(** What usages, count_usages and has_usages answer: the links that refer to [i], except the
    misfiled ones, but if [i] refers to itself and is misfiled then it is subtracted from the
    count although it was not counted. *)
Theorem C85_usages :
  forall cf tops lops st Ms Mt i s t,
  let S := split_links cf tops lops in
  unit_env cf tops lops -> cfg_room cf -> slife cf tops lops st Ms Mt -> is_link S st i s t ->
  exists L1 L2 e1 e2, NoDup L1 /\ NoDup L2 /\
    (forall l, In l L1 <-> is_link S st (l_index l) (l_source l) (l_target l) /\ l_index l <> i /\ l_source l = i /\ ~ Ms (l_index l)) /\
    (forall l, In l L2 <-> is_link S st (l_index l) (l_source l) (l_target l) /\ l_index l <> i /\ l_target l = i /\ ~ Mt (l_index l)) /\
    (e1 = 1 /\ s = i /\ Ms i \/ e1 = 0 /\ (s = i -> ~ Ms i)) /\
    (e2 = 1 /\ t = i /\ Mt i \/ e2 = 0 /\ (t = i -> ~ Mt i)) /\
    let n := reckoned (N.of_nat (length L1)) (N.of_nat (length L2)) e1 e2 in
    d_count_usages cf S st i = (let* n := n in Val (Ok n)) /\
    d_has_usages cf S st i = (let* n := n in Val (negb (n =? 0))) /\
    d_usages cf S st i = (let* _ := n in Val (Ok (map l_index (L1 ++ L2)))).
Proof. exact L_C85_usages. Qed.
Print Assumptions C85_usages.

Theorem C85_usages_missing :
  forall cf tops lops st Ms Mt i,
  let S := split_links cf tops lops in
  unit_env cf tops lops -> slife cf tops lops st Ms Mt -> no_link S st i ->
  d_usages cf S st i = Val (Err (NotExists i)) /\ d_count_usages cf S st i = Val (Err (NotExists i)) /\
  d_has_usages cf S st i = Val false.
Proof. exact L_C85_usages_missing. Qed.
Print Assumptions C85_usages_missing.

(** Link 1 refers to index 3 twice and was misfiled when that index was given out; link 2 refers
    to itself and to link 1. *)
Theorem C85_nonvacuous :
  exists st Ms Mt, slife ex_cf ref_tree_ops ref_list_ops st Ms Mt /\ cfg_room ex_cf /\
  is_link ex_S st 1 3 3 /\ Ms 1 /\ Mt 1 /\ is_link ex_S st 2 2 1 /\ is_link ex_S st 3 0 0 /\ no_link ex_S st 4 /\
  (exists st', d_create_link ex_S 3 2 st = Val (st', Ok 4) /\ is_link ex_S st' 4 3 2) /\
  (exists st', d_create_point ex_S st = Val (st', Ok 4) /\ is_link ex_S st' 4 4 4) /\
  d_get_or_create ex_cf ex_S 2 1 st = Val (st, Ok 2) /\
  d_usages ex_cf ex_S st 1 = Val (Ok [2]) /\ d_count_usages ex_cf ex_S st 1 = Val (Ok 1) /\
  d_usages ex_cf ex_S st 2 = Val (Ok []) /\ d_count_usages ex_cf ex_S st 2 = Val (Ok 0).
Proof. exact L_C85_nonvacuous. Qed.
Print Assumptions C85_nonvacuous.

(** Here the pair (3, 3) is given out a second time and the usages of link 3 are empty. *)
Theorem C85_refuted :
  exists st Ms Mt st', slife ex_cf ref_tree_ops ref_list_ops st Ms Mt /\ is_link ex_S st 1 3 3 /\ linked ex_S st 3 /\
  d_get_or_create ex_cf ex_S 3 3 st = Val (st', Ok 4) /\ is_link ex_S st' 1 3 3 /\ is_link ex_S st' 4 3 3 /\
  d_usages ex_cf ex_S st 3 = Val (Ok []) /\ d_count_usages ex_cf ex_S st 3 = Val (Ok 0).
Proof. exact L_C85_refuted. Qed.
Print Assumptions C85_refuted.

Theorem C85_count_refuted :
  (exists st Ms Mt, slife ex_cf ref_tree_ops ref_list_ops st Ms Mt /\ is_link ex_S st 2 2 1 /\ Ms 2 /\
     d_count_usages ex_cf ex_S st 2 = Panic /\ d_usages ex_cf ex_S st 2 = Panic /\ d_has_usages ex_cf ex_S st 2 = Panic) /\
  (exists st Ms Mt, slife ex_cf ref_tree_ops ref_list_ops st Ms Mt /\ is_link ex_S st 2 2 1 /\ is_link ex_S st 3 2 1 /\
     d_count_usages ex_cf ex_S st 2 = Val (Ok 0) /\ d_has_usages ex_cf ex_S st 2 = Val false /\ d_usages ex_cf ex_S st 2 = Val (Ok [3])).
Proof. exact L_C85_count_refuted. Qed.
Print Assumptions C85_count_refuted.
