(** Rebase on a two-memory store used freely (C85). *)
From Coq Require Import NArith List Bool Lia Permutation Sorted.
From Verif Require Import FreeRebase Base Trees Lists TreeInv Spec Iface UnitModel UnitInv UnitOps LinkModel SplitModel Forest
  SplitInv SplitReads SplitOps SplitWrites SplitLinks Doublets DoubletsOK Obs Hist Claims UnitHist TreeImpl SplitHist
  Decorators GoodStore DecoratorClaims Stacks SplitLife SplitFree.
From Verif Require CrashDefaults.
Import CrashDefaults(is_at, NoDup_map_of).
From Verif Require Import FreeDefaults.
Import ListNotations.
Open Scope N_scope.

(** rebase changes the users the store finds, tells the handler of each once, and changes no other
    link.  A user that refers to itself becomes misfiled. *)
Theorem C85_rebase_partial :
  forall cf tops lops st Ms Mt old new,
  let S := split_links cf tops lops in
  unit_env cf tops lops -> slife cf tops lops st Ms Mt -> linked S st old -> new <> old -> new <> 0 -> (forall j, separable S st j) ->
  (forall l, seen_user S st Ms Mt old l -> ~ Ms (l_index l) /\ ~ Mt (l_index l)) -> (forall x, x <> old -> ~ is_link S st x old old) ->
  exists st' W, NoDup W /\ (forall l, In l W <-> seen_user S st Ms Mt old l) /\ rebased_all S old new st st' W /\
    slife cf tops lops st' (more_s old new Ms W) (more_t old new Mt W) /\
    (forall H B (h : uwrite H B) x, d_rebase_with cf S h old new st x = Val (st', told_turned h old new W x, Ok tt)) /\
    d_rebase cf S old new st = Val (st', Ok new).
Proof. exact L_C85_rebase_partial. Qed.
Print Assumptions C85_rebase_partial.

(** rebase_and_delete also deletes the link, unless that link is misfiled. *)
Theorem C85_rebase_and_delete_partial :
  forall cf tops lops st Ms Mt old new,
  let S := split_links cf tops lops in
  unit_env cf tops lops -> slife cf tops lops st Ms Mt -> linked S st old -> new <> old -> new <> 0 -> (forall j, separable S st j) ->
  (forall l, seen_user S st Ms Mt old l -> ~ Ms (l_index l) /\ ~ Mt (l_index l)) -> (forall x, x <> old -> ~ is_link S st x old old) ->
  ~ Ms old -> ~ Mt old ->
  (forall l, seen_user S st Ms Mt old l -> ~ is_link S st old (l_source (rebased old new l)) (l_target (rebased old new l))) ->
  exists st' W, NoDup W /\ (forall l, In l W <-> seen_user S st Ms Mt old l) /\ no_link S st' old /\
    (forall w, In w W -> li_get S st' (l_index w) = Val (Some (rebased old new w))) /\
    (forall j, j <> old -> ~ In j (map l_index W) -> li_get S st' j = li_get S st j) /\
    slife cf tops lops st' (more_s old new (fun j => Ms j /\ forall t, ~ is_link S st j old t) W)
      (more_t old new (fun j => Mt j /\ forall s, ~ is_link S st j s old) W) /\
    d_rebase_and_delete cf S old new st = Val (st', Ok 0).
Proof. exact L_C85_rebase_and_delete_partial. Qed.
Print Assumptions C85_rebase_and_delete_partial.

Theorem C85_rebase_nonvacuous :
  exists st Ms Mt st' st2,
  slife ex_cf ref_tree_ops ref_list_ops st Ms Mt /\ Ms 1 /\ is_link ex_S st 1 3 3 /\ is_link ex_S st 2 2 1 /\ ~ Ms 2 /\ ~ Mt 2 /\
  (forall j, separable ex_S st j) /\ (forall x, x <> 2 -> ~ is_link ex_S st x 2 2) /\
  (forall l, seen_user ex_S st Ms Mt 2 l <-> l = mkLink 3 3 2) /\ ~ Ms 3 /\ ~ Mt 3 /\
  (forall l, seen_user ex_S st Ms Mt 2 l -> ~ is_link ex_S st 2 (l_source (rebased 2 1 l)) (l_target (rebased 2 1 l))) /\
  more_s 2 1 Ms [mkLink 3 3 2] 3 /\
  d_rebase ex_cf ex_S 2 1 st = Val (st', Ok 1) /\ is_link ex_S st' 3 3 1 /\ is_link ex_S st' 2 2 1 /\
  d_rebase_and_delete ex_cf ex_S 2 1 st = Val (st2, Ok 0) /\ is_link ex_S st2 3 3 1 /\ no_link ex_S st2 2.
Proof. exact L_C85_rebase_nonvacuous. Qed.
Print Assumptions C85_rebase_nonvacuous.

(** rebase_and_delete says it has replaced a link everywhere, and a link still refers to it. *)
Theorem C85_rebase_refuted :
  exists st Ms Mt st',
  slife ex_cf ref_tree_ops ref_list_ops st Ms Mt /\ linked ex_S st 3 /\ is_link ex_S st 1 3 3 /\ (forall j, separable ex_S st j) /\
  ~ Ms 3 /\ ~ Mt 3 /\ d_rebase_and_delete ex_cf ex_S 3 2 st = Val (st', Ok 0) /\ no_link ex_S st' 3 /\ is_link ex_S st' 1 3 3.
Proof. exact L_C85_rebase_refuted. Qed.
Print Assumptions C85_rebase_refuted.
