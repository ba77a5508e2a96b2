(** Properties of rebase in the presence of links that use the old index at both ends (C18, C50, C57). *)
From Coq Require Import NArith List Bool Lia Permutation Sorted.
From Verif Require Import RebaseHalf Base Trees Lists Spec Iface UnitModel UnitInv UnitOps UnitLinks
  Doublets Obs DoubletsOK Hist Claims TreeImpl UnitHist UnitClaims DefaultClaims
  SplitModel SplitInv SplitReads SplitOps SplitWrites SplitLinks SplitHist SplitClaims SplitDefaults.
Import ListNotations.
Open Scope N_scope.

(** With links that use the old index at both ends allowed: such a link keeps the old index as
    its source, and only such a link does. *)
Theorem C18_rebase_halves :
  forall cf tops lops st d old new,
  let U := unit_links cf tops lops in
  unit_env cf tops lops -> u_hist cf tops lops st d -> distinct_pairs U st ->
  old <> new -> linked U st old -> no_cross U st old new ->
  (forall i j s t, half_moved U st old new i s t -> half_moved U st old new j s t -> (s, t) <> (0, 0) -> i = j) ->
  exists st', (exists d', u_hist cf tops lops st' d') /\ d_rebase cf U old new st = Val (st', Ok new) /\
    (forall i s t, is_link U st' i s t <-> half_moved U st old new i s t) /\
    (forall x, x <> old -> is_link U st x old old -> is_link U st' x old new) /\
    (forall i s t, i <> old -> is_link U st' i s t -> s = old \/ t = old -> is_link U st i old old /\ s = old /\ t = new).
Proof. exact L_C18_rebase_halves. Qed.
Print Assumptions C18_rebase_halves.

Theorem C50_rebase_and_delete_halves :
  forall cf tops lops st d old new,
  let U := unit_links cf tops lops in
  unit_env cf tops lops -> u_hist cf tops lops st d -> distinct_pairs U st ->
  old <> new -> linked U st old -> no_cross U st old new ->
  (forall i j s t, half_moved U st old new i s t -> half_moved U st old new j s t -> (s, t) <> (0, 0) -> i = j) ->
  exists st', (exists d', u_hist cf tops lops st' d') /\ d_rebase_and_delete cf U old new st = Val (st', Ok 0) /\
    no_link U st' old /\ (forall i s t, is_link U st' i s t <-> i <> old /\ half_moved U st old new i s t) /\
    (forall x, x <> old -> is_link U st x old old -> is_link U st' x old new).
Proof. exact L_C50_rebase_and_delete_halves. Qed.
Print Assumptions C50_rebase_and_delete_halves.

(** * C57 *)
Theorem C57_split_rebase_halves :
  forall cf tops lops st d old new,
  let SL := split_links cf tops lops in
  unit_env cf tops lops -> s_hist cf tops lops st d -> distinct_pairs SL st ->
  old <> new -> new <> 0 -> linked SL st old -> plain_users SL st old new -> no_cross SL st old new ->
  (forall i j s t, half_moved SL st old new i s t -> half_moved SL st old new j s t -> (s, t) <> (0, 0) -> i = j) ->
  exists st', (exists d', s_hist cf tops lops st' d') /\ d_rebase cf SL old new st = Val (st', Ok new) /\
    (forall i s t, is_link SL st' i s t <-> half_moved SL st old new i s t) /\
    (forall x, x <> old -> is_link SL st x old old -> is_link SL st' x old new) /\
    (forall i s t, i <> old -> is_link SL st' i s t -> s = old \/ t = old -> is_link SL st i old old /\ s = old /\ t = new) /\
    exists st2, (exists d2, s_hist cf tops lops st2 d2) /\ d_rebase_and_delete cf SL old new st = Val (st2, Ok 0) /\
      no_link SL st2 old /\ (forall i s t, is_link SL st2 i s t <-> i <> old /\ half_moved SL st old new i s t).
Proof. exact L_C57_split_rebase_halves. Qed.
Print Assumptions C57_split_rebase_halves.

Theorem C18_halves_nonvacuous :
  exists st d st' st2, u_hist ex_cf ref_tree_ops ref_list_ops st d /\
  distinct_pairs ex_U st /\ linked ex_U st 1 /\ is_link ex_U st 3 1 1 /\ no_cross ex_U st 1 5 /\
  (forall i j s t, half_moved ex_U st 1 5 i s t -> half_moved ex_U st 1 5 j s t -> (s, t) <> (0, 0) -> i = j) /\
  d_rebase ex_cf ex_U 1 5 st = Val (st', Ok 5) /\ is_link ex_U st' 3 1 5 /\ is_link ex_U st' 4 3 5 /\
  d_rebase_and_delete ex_cf ex_U 1 5 st = Val (st2, Ok 0) /\ no_link ex_U st2 1 /\ is_link ex_U st2 3 1 5.
Proof. exact L_C18_halves_nonvacuous. Qed.
Print Assumptions C18_halves_nonvacuous.

Theorem C57_halves_nonvacuous :
  exists st d st' st2, s_hist ex_cf ref_tree_ops ref_list_ops st d /\
  distinct_pairs ex_S st /\ linked ex_S st 1 /\ is_link ex_S st 3 1 1 /\ plain_users ex_S st 1 5 /\ no_cross ex_S st 1 5 /\
  (forall i j s t, half_moved ex_S st 1 5 i s t -> half_moved ex_S st 1 5 j s t -> (s, t) <> (0, 0) -> i = j) /\
  d_rebase ex_cf ex_S 1 5 st = Val (st', Ok 5) /\ is_link ex_S st' 3 1 5 /\ is_link ex_S st' 4 3 5 /\
  d_rebase_and_delete ex_cf ex_S 1 5 st = Val (st2, Ok 0) /\ no_link ex_S st2 1 /\ is_link ex_S st2 3 1 5.
Proof. exact L_C57_halves_nonvacuous. Qed.
Print Assumptions C57_halves_nonvacuous.
