(** Sequences written into a store and read back (C84). *)
From Coq Require Import NArith List Bool Lia Permutation Sorted.
From Verif Require Import Sequences Base Trees Lists TreeInv Spec Iface UnitModel UnitInv UnitOps UnitLinks LinkModel SplitModel Forest
  SplitInv SplitReads SplitOps SplitWrites SplitLinks Doublets DoubletsOK Obs Hist Claims UnitHist TreeImpl SplitHist UnitClaims SplitLife.
Import ListNotations.
Open Scope N_scope.

(** Any number of sequences written into a two-memory store, one after another, are all read back,
    whatever the store held before.  No value may be 0. *)
Theorem C84_split_partial :
  forall cf tops lops st Ms Mt ls,
  let SL := split_links cf tops lops in
  unit_env cf tops lops -> cfg_room cf -> slife cf tops lops st Ms Mt -> (forall l, In l ls -> ~ In 0 l) ->
  exists st' Ms' Mt' r, seq_write_all SL ls st = Val (st', r) /\ slife cf tops lops st' Ms' Mt' /\
    (forall j s t, is_link SL st j s t -> is_link SL st' j s t) /\
    match r with
    | Err e => e = LimitReached (c_iend cf) \/ e = AllocFailed
    | Ok rs => length rs = length ls /\
        forall n root l, nth_error rs n = Some root -> nth_error ls n = Some l ->
          ~ linked SL st root /\ linked SL st' root /\
          forall fuel, (length l < fuel)%nat -> seq_read cf SL fuel st' root = Val (Ok l)
    end.
Proof. exact L_C84_split_partial. Qed.
Print Assumptions C84_split_partial.

(** In a one-memory store too, 0 or not, when no link has a source that is not a link. *)
Theorem C84_unit_partial :
  forall cf tops lops st d ls,
  let U := unit_links cf tops lops in
  unit_env cf tops lops -> cfg_room cf -> u_hist cf tops lops st d -> sources_linked U st ->
  exists st' d' r, seq_write_all U ls st = Val (st', r) /\ u_hist cf tops lops st' d' /\ sources_linked U st' /\
    (forall j s t, is_link U st j s t -> is_link U st' j s t) /\
    match r with
    | Err e => e = LimitReached (c_iend cf) \/ e = AllocFailed
    | Ok rs => length rs = length ls /\
        forall n root l, nth_error rs n = Some root -> nth_error ls n = Some l ->
          ~ linked U st root /\ linked U st' root /\
          forall fuel, (length l < fuel)%nat -> seq_read cf U fuel st' root = Val (Ok l)
    end.
Proof. exact L_C84_unit_partial. Qed.
Print Assumptions C84_unit_partial.

(** The store of the first claim holds a misfiled link, that of the second some links and a hole. *)
Theorem C84_nonvacuous :
  unit_env ex_cf ref_tree_ops ref_list_ops /\ cfg_room ex_cf /\
  (slife ex_cf ref_tree_ops ref_list_ops ex_mis one one /\ (forall l, In l ex_seqs -> ~ In 0 l) /\
   exists st', seq_write_all ex_S ex_seqs ex_mis = Val (st', Ok [4; 11; 12]) /\
     seq_read ex_cf ex_S 4 st' 4 = Val (Ok [11; 7; 7]) /\ seq_read ex_cf ex_S 4 st' 11 = Val (Ok []) /\
     seq_read ex_cf ex_S 4 st' 12 = Val (Ok [5])) /\
  exists st d, u_hist ex_cf ref_tree_ops ref_list_ops st d /\ sources_linked ex_U st /\
   exists st', seq_write_all ex_U [[0; 3]; [5]] st = Val (st', Ok [1; 8]) /\
     seq_read ex_cf ex_U 3 st' 1 = Val (Ok [0; 3]) /\ seq_read ex_cf ex_U 2 st' 8 = Val (Ok [5]).
Proof. exact L_C84_nonvacuous. Qed.
Print Assumptions C84_nonvacuous.

(** A two-memory store: a sequence with a 0 in it is written but cannot be read. *)
Theorem C84_split_refuted :
  exists st d st', s_hist ex_cf ref_tree_ops ref_list_ops st d /\
    seq_write_all ex_S [[0]] st = Val (st', Ok [1]) /\
    forall fuel, (1 < fuel)%nat -> seq_read ex_cf ex_S fuel st' 1 = Val (Err (NotExists 2)).
Proof. exact L_C84_split_refuted. Qed.
Print Assumptions C84_split_refuted.

(** A one-memory store with a link 1: 3 -> 3: reading the sequence written next never ends. *)
Theorem C84_unit_refuted :
  exists st d st', u_hist ex_cf ref_tree_ops ref_list_ops st d /\ is_link ex_U st 1 3 3 /\ no_link ex_U st 3 /\
    seq_write_all ex_U [[7]] st = Val (st', Ok [2]) /\
    forall fuel, seq_read ex_cf ex_U fuel st' 2 = Diverge.
Proof. exact L_C84_unit_refuted. Qed.
Print Assumptions C84_unit_refuted.
