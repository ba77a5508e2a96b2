(** Sums of usage counts in a small address type (C80). *)
From Coq Require Import NArith List Bool Lia Permutation.
From Verif Require Import Overflow Base Trees Lists TreeInv Spec Iface UnitModel UnitInv UnitOps UnitLinks LinkModel SplitModel Forest
  SplitInv SplitReads SplitOps SplitWrites SplitLinks Doublets DoubletsOK Obs Hist Claims TreeImpl UnitHist SplitHist UnitClaims SplitClaims.
Import ListNotations.
Open Scope N_scope.

(** The counts are exact or the addition panics, and which of the two depends on nothing but the
    number of links. *)
Theorem C80_unit_partial :
  forall cf tops lops st d i,
  let U := unit_links cf tops lops in
  unit_env cf tops lops -> u_hist cf tops lops st d -> linked U st i -> exact_counts cf U st i.
Proof. exact L_C80_unit_partial. Qed.
Print Assumptions C80_unit_partial.

Theorem C80_split_partial :
  forall cf tops lops st d i,
  let SL := split_links cf tops lops in
  unit_env cf tops lops -> s_hist cf tops lops st d -> linked SL st i -> exact_counts cf SL st i.
Proof. exact L_C80_split_partial. Qed.
Print Assumptions C80_split_partial.

(** As long as no two links have the same pair, the sums fit every address type. *)
Theorem C80_unit_distinct_partial :
  forall cf tops lops st d i,
  let U := unit_links cf tops lops in
  unit_env cf tops lops -> u_hist cf tops lops st d -> distinct_pairs U st -> linked U st i ->
  (exists n, u_count cf st [c_any cf; i] = Val n) /\ (exists l, d_usages cf U st i = Val (Ok l) /\
    d_count_usages cf U st i = Val (Ok (N.of_nat (length l))) /\ d_has_usages cf U st i = Val (match l with [] => false | _ => true end)).
Proof. exact L_C80_unit_distinct_partial. Qed.
Print Assumptions C80_unit_distinct_partial.

Theorem C80_split_distinct_partial :
  forall cf tops lops st d i,
  let SL := split_links cf tops lops in
  unit_env cf tops lops -> s_hist cf tops lops st d -> distinct_pairs SL st -> linked SL st i ->
  (exists n, s_count cf st [c_any cf; i] = Val n) /\ (exists l, d_usages cf SL st i = Val (Ok l) /\
    d_count_usages cf SL st i = Val (Ok (N.of_nat (length l))) /\ d_has_usages cf SL st i = Val (match l with [] => false | _ => true end)).
Proof. exact L_C80_split_distinct_partial. Qed.
Print Assumptions C80_split_distinct_partial.

Theorem C80_refuted :
  let U := unit_links ov_cf ref_tree_ops ref_list_ops in let SL := split_links ov_cf ref_tree_ops ref_list_ops in
  unit_env ov_cf ref_tree_ops ref_list_ops /\
  (exists st d, u_hist ov_cf ref_tree_ops ref_list_ops st d /\ is_link U st 1 1 1 /\ u_count ov_cf st [] = Val 9 /\
     u_count ov_cf st [c_any ov_cf; 1] = Panic /\ d_count_usages ov_cf U st 1 = Panic /\ d_has_usages ov_cf U st 1 = Panic /\ d_usages ov_cf U st 1 = Panic) /\
  (exists st d, s_hist ov_cf ref_tree_ops ref_list_ops st d /\ is_link SL st 1 1 1 /\ s_count ov_cf st [] = Val 9 /\
     s_count ov_cf st [c_any ov_cf; 1] = Panic /\ d_count_usages ov_cf SL st 1 = Panic /\ d_has_usages ov_cf SL st 1 = Panic /\ d_usages ov_cf SL st 1 = Panic).
Proof. exact L_C80_refuted. Qed.
Print Assumptions C80_refuted.

(** The hypotheses above are met, also in an address type without room for twice the links. *)
Theorem C80_nonvacuous :
  unit_env ov_cf ref_tree_ops ref_list_ops /\ ~ cfg_room ov_cf /\
  (exists st d, u_hist ov_cf ref_tree_ops ref_list_ops st d /\ linked (unit_links ov_cf ref_tree_ops ref_list_ops) st 1) /\
  (exists st d, s_hist ov_cf ref_tree_ops ref_list_ops st d /\ linked (split_links ov_cf ref_tree_ops ref_list_ops) st 1) /\
  (exists st d, u_hist ex_cf ref_tree_ops ref_list_ops st d /\ distinct_pairs ex_U st /\ linked ex_U st 1 /\ u_count ex_cf st [c_any ex_cf; 1] = Val 4) /\
  (exists st d, s_hist ex_cf ref_tree_ops ref_list_ops st d /\ distinct_pairs ex_S st /\ linked ex_S st 1 /\ s_count ex_cf st [c_any ex_cf; 1] = Val 4).
Proof. exact L_C80_nonvacuous. Qed.
Print Assumptions C80_nonvacuous.
