(** Builds without overflow checks (C101). *)
From Coq Require Import NArith PeanoNat List Bool Lia Permutation.
From Verif Require Import WrapClaims Base Trees Lists TreeInv Spec Iface UnitModel UnitInv UnitOps UnitLinks LinkModel SplitModel Forest
  SplitInv SplitReads SplitOps SplitWrites SplitLinks Doublets DoubletsOK Obs Hist Claims TreeImpl UnitHist SplitHist UnitClaims SplitClaims
  DefaultClaims SplitDefaults Overflow AfterCrash CrashDefaults WrapModel.
Import ListNotations.
Open Scope N_scope.

(** The calls and the methods of the trait, one after the other. *)
Theorem C101_calls :
  forall cf tops lops,
  calls_below (unit_links cf tops lops) (wunit_links cf tops lops) /\
  calls_below (split_links cf tops lops) (wsplit_links cf tops lops).
Proof. exact L_C101_calls. Qed.
Print Assumptions C101_calls.

Theorem C101_methods :
  forall cf S (I J : LinksI S),
  calls_below I J ->
  (forall st i v, d_count_usages cf I st i = Val v -> wd_count_usages cf J st i = Val v) /\
  (forall st i v, d_has_usages cf I st i = Val v -> wd_has_usages cf J st i = Val v) /\
  (forall st i v, d_usages cf I st i = Val v -> wd_usages cf J st i = Val v) /\
  (forall st v, d_create_point I st = Val v -> d_create_point J st = Val v) /\
  (forall s t st v, d_create_link I s t st = Val v -> d_create_link J s t st = Val v) /\
  (forall s t st v, d_get_or_create cf I s t st = Val v -> d_get_or_create cf J s t st = Val v) /\
  (forall st s t v, d_search cf I st s t = Val v -> d_search cf J st s t = Val v) /\
  (forall st q v, d_each_iter I st q = Val v -> d_each_iter J st q = Val v) /\
  (forall fuel st v, d_delete_all I fuel st = Val v -> d_delete_all J fuel st = Val v) /\
  (forall H B (h : uwrite H B) q st x v, d_delete_query_with I h q st x = Val v -> d_delete_query_with J h q st x = Val v) /\
  (forall H B (h : uwrite H B) i st x v, d_delete_usages_with cf I h i st x = Val v -> d_delete_usages_with cf J h i st x = Val v) /\
  (forall H B (h : uwrite H B) i j st x v, d_rebase_with cf I h i j st x = Val v -> d_rebase_with cf J h i j st x = Val v) /\
  (forall i j st v, d_rebase_and_delete cf I i j st = Val v -> d_rebase_and_delete cf J i j st = Val v).
Proof. exact L_C101_methods. Qed.
Print Assumptions C101_methods.

Theorem C101_histories_unit :
  forall cf tops lops st d,
  unit_env cf tops lops ->
  wu_hist cf tops lops st d <-> u_hist cf tops lops st d.
Proof. exact L_C101_histories_unit. Qed.
Print Assumptions C101_histories_unit.

Theorem C101_histories_split :
  forall cf tops lops st d,
  unit_env cf tops lops ->
  ws_hist cf tops lops st d <-> s_hist cf tops lops st d.
Proof. exact L_C101_histories_split. Qed.
Print Assumptions C101_histories_split.

(** In every state of a history the counts are the numbers of links, reduced. *)
Theorem C101_counts_unit :
  forall cf tops lops st d i,
  let W := wunit_links cf tops lops in
  unit_env cf tops lops -> wu_hist cf tops lops st d -> linked W st i -> reduced_counts cf W st i.
Proof. exact L_C101_counts_unit. Qed.
Print Assumptions C101_counts_unit.

Theorem C101_counts_split :
  forall cf tops lops st d i,
  let W := wsplit_links cf tops lops in
  unit_env cf tops lops -> ws_hist cf tops lops st d -> linked W st i -> reduced_counts cf W st i.
Proof. exact L_C101_counts_split. Qed.
Print Assumptions C101_counts_split.

(** As long as no two links have the same pair, nothing is reduced. *)
Theorem C101_distinct_unit_partial :
  forall cf tops lops st d i,
  let W := wunit_links cf tops lops in
  unit_env cf tops lops -> wu_hist cf tops lops st d -> distinct_pairs W st -> linked W st i ->
  exists l, wd_usages cf W st i = Val (Ok l) /\ wd_count_usages cf W st i = Val (Ok (N.of_nat (length l))) /\
    wd_has_usages cf W st i = Val (match l with [] => false | _ => true end).
Proof. exact L_C101_distinct_unit_partial. Qed.
Print Assumptions C101_distinct_unit_partial.

Theorem C101_distinct_split_partial :
  forall cf tops lops st d i,
  let W := wsplit_links cf tops lops in
  unit_env cf tops lops -> ws_hist cf tops lops st d -> distinct_pairs W st -> linked W st i ->
  exists l, wd_usages cf W st i = Val (Ok l) /\ wd_count_usages cf W st i = Val (Ok (N.of_nat (length l))) /\
    wd_has_usages cf W st i = Val (match l with [] => false | _ => true end).
Proof. exact L_C101_distinct_split_partial. Qed.
Print Assumptions C101_distinct_split_partial.

Theorem C101_refuted :
  unit_env ov_cf ref_tree_ops ref_list_ops /\ c_iend ov_cf + 1 + c_step ov_cf <= c_tmax ov_cf /\
  (exists st d, wu_hist ov_cf ref_tree_ops ref_list_ops st d /\ is_link ov_W st 1 1 1 /\ is_link ov_W st 2 1 1 /\
     li_count ov_W st [c_any ov_cf; 1] = Val 2 /\ wd_count_usages ov_cf ov_W st 1 = Val (Ok 0) /\ wd_has_usages ov_cf ov_W st 1 = Val false /\
     wd_usages ov_cf ov_W st 1 = Val (Ok [2; 3; 4; 5; 6; 7; 8; 9; 2; 3; 4; 5; 6; 7; 8; 9])) /\
  (exists st d, ws_hist ov_cf ref_tree_ops ref_list_ops st d /\ is_link ov_WS st 1 1 1 /\ is_link ov_WS st 2 1 1 /\
     li_count ov_WS st [c_any ov_cf; 1] = Val 2 /\ wd_count_usages ov_cf ov_WS st 1 = Val (Ok 0) /\ wd_has_usages ov_cf ov_WS st 1 = Val false /\
     wd_usages ov_cf ov_WS st 1 = Val (Ok [2; 3; 4; 5; 6; 7; 8; 9; 2; 3; 4; 5; 6; 7; 8; 9])).
Proof. exact L_C101_refuted. Qed.
Print Assumptions C101_refuted.

(** After the interrupted update of C87, where builds with the checks panic, link 2 refers to itself
    and is in one of the two trees: the subtraction for the other one goes below zero and the link,
    used by no other, has as many usages as the address type can hold. *)
Theorem C101_crashed_refuted :
  exists st L C, life ex_cf ref_tree_ops ref_list_ops st L C /\ is_link ex_U st 2 2 2 /\
  d_count_usages ex_cf ex_U st 2 = Panic /\
  (let W := wunit_links ex_cf ref_tree_ops ref_list_ops in
   wd_count_usages ex_cf W st 2 = Val (Ok (c_tmax ex_cf)) /\ wd_has_usages ex_cf W st 2 = Val true /\ wd_usages ex_cf W st 2 = Val (Ok [])).
Proof. exact L_C101_crashed_refuted. Qed.
Print Assumptions C101_crashed_refuted.

(** The hypotheses are met, with calls that return in both builds. *)
Theorem C101_nonvacuous :
  c_iend ex_cf + 1 + c_step ex_cf <= c_tmax ex_cf /\
  (let W := wunit_links ex_cf ref_tree_ops ref_list_ops in
   exists st d, wu_hist ex_cf ref_tree_ops ref_list_ops st d /\ distinct_pairs W st /\ linked W st 1 /\
     li_count W st [c_any ex_cf; 1] = Val 4 /\ d_count_usages ex_cf ex_U st 1 = wd_count_usages ex_cf W st 1 /\ wd_has_usages ex_cf W st 1 = Val true) /\
  (let W := wsplit_links ex_cf ref_tree_ops ref_list_ops in
   exists st d, ws_hist ex_cf ref_tree_ops ref_list_ops st d /\ distinct_pairs W st /\ linked W st 1 /\
     li_count W st [c_any ex_cf; 1] = Val 4 /\ d_count_usages ex_cf ex_S st 1 = wd_count_usages ex_cf W st 1 /\ wd_has_usages ex_cf W st 1 = Val true).
Proof. exact L_C101_nonvacuous. Qed.
Print Assumptions C101_nonvacuous.
