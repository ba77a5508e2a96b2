(** Stops inside operations of the free lists (C79). *)
From Coq Require Import NArith List Bool Lia.
From Verif Require Import CrashLists Base Trees Lists TreeInv Spec Iface UnitModel UnitInv UnitOps UnitLinks LinkModel SplitModel Forest
  SplitInv SplitReads SplitOps SplitWrites SplitLinks Doublets DoubletsOK Obs Hist Claims TreeImpl UnitHist SplitHist
  Layout Accessors CrashInside CrashSteps.
From Verif Require Crash CrashWrites CrashClaims SplitCrash SplitCrashClaims.
Import ListNotations.
Open Scope N_scope.

(** After a stop inside such a call every other link is as before, a link deleted from the end is
    gone, and count and each differ by at most one. *)
Theorem C79_unit_partial :
  forall cf tops lops st d i x st1 l q n sn orc st2,
  let U := unit_links cf tops lops in
  unit_env cf tops lops -> u_hist cf tops lops st d -> (forall j, linked U st j -> j < c_step cf) ->
  u_list_call cf tops lops st i x st1 -> list_op (u_len st1) (u_lhdr st1) (u_data st1) l x q ->
  u_in_list q n st1 sn -> u_open cf (u_persist sn orc) = Val (Ok st2) ->
  (forall j, j <> i -> j <> x -> li_get U st2 j = li_get U st j) /\ (i <> x -> no_link U st2 i) /\
  exists k, (u_count cf st2 [] = Val k \/ u_count cf st2 [] = Val (k + 1)) /\
    (u_each cf (fun m _ => (m + 1, Continue)) [] st2 0 = Val (k, Continue) \/ u_each cf (fun m _ => (m + 1, Continue)) [] st2 0 = Val (k + 1, Continue)).
Proof. exact L_C79_unit_partial. Qed.
Print Assumptions C79_unit_partial.

Theorem C79_split_partial :
  forall cf tops lops st d i x st1 l q n sn orc st2,
  let SL := split_links cf tops lops in
  unit_env cf tops lops -> s_hist cf tops lops st d -> SplitCrashClaims.all_fit cf tops lops st ->
  s_list_call cf tops lops st i x st1 -> list_op (s_dlen st1) (s_lhdr st1) (s_data st1) l x q ->
  s_in_list q n st1 sn -> s_open cf (s_persist sn orc) = Val (Ok st2) ->
  (forall j, j <> i -> j <> x -> li_get SL st2 j = li_get SL st j) /\ (i <> x -> no_link SL st2 i) /\
  exists k, (s_count cf st2 [] = Val k \/ s_count cf st2 [] = Val (k + 1)) /\
    (s_each cf (fun m _ => (m + 1, Continue)) [] st2 0 = Val (k, Continue) \/ s_each cf (fun m _ => (m + 1, Continue)) [] st2 0 = Val (k + 1, Continue)).
Proof. exact L_C79_split_partial. Qed.
Print Assumptions C79_split_partial.

Theorem C79_realised :
  forall len h d l x,
  lrep h d l -> (forall y, In y l -> y < len) -> x <> 0 -> x < len ->
  (~ In x l -> list_op len h d l x (attach_first x)) /\ (In x l -> list_op len h d l x (detach x)).
Proof. exact L_C79_realised. Qed.
Print Assumptions C79_realised.

(** So they are for every call. *)
Theorem C79_calls_realised :
  forall cf tops lops,
  unit_env cf tops lops ->
  (forall st d i x st1, u_hist cf tops lops st d -> u_list_call cf tops lops st i x st1 ->
     exists l q, list_op (u_len st1) (u_lhdr st1) (u_data st1) l x q /\ (q = attach_first x \/ q = detach x)) /\
  (forall st d i x st1, s_hist cf tops lops st d -> s_list_call cf tops lops st i x st1 ->
     exists l q, list_op (s_dlen st1) (s_lhdr st1) (s_data st1) l x q /\ (q = attach_first x \/ q = detach x)).
Proof. exact L_C79_calls_realised. Qed.
Print Assumptions C79_calls_realised.

Theorem C79_refuted :
  (exists st d sn st2, u_hist ex_cf ref_tree_ops ref_list_ops st d /\ u_list_call ex_cf ref_tree_ops ref_list_ops st 4 4 st /\
     list_op (u_len st) (u_lhdr st) (u_data st) [4; 3; 2] 4 (detach 4) /\ u_in_list (detach 4) 8 st sn /\
     u_open ex_cf (u_persist sn (fun _ _ => true)) = Val (Ok st2) /\ no_link ex_U st 4 /\ is_link ex_U st2 4 0 3 /\ no_link ex_U st2 3 /\
     u_count ex_cf st2 [] = Val 2 /\ u_each ex_cf (fun m _ => (m + 1, Continue)) [] st2 0 = Val (3, Continue)) /\
  (exists st d sn st2, s_hist ex_cf ref_tree_ops ref_list_ops st d /\ s_list_call ex_cf ref_tree_ops ref_list_ops st 4 4 st /\
     list_op (s_dlen st) (s_lhdr st) (s_data st) [4; 3; 2] 4 (detach 4) /\ s_in_list (detach 4) 8 st sn /\
     s_open ex_cf (s_persist sn all_grown) = Val (Ok st2) /\ no_link ex_S st 4 /\ is_link ex_S st2 4 0 3 /\ no_link ex_S st2 3 /\
     s_count ex_cf st2 [] = Val 2 /\ s_each ex_cf (fun m _ => (m + 1, Continue)) [] st2 0 = Val (3, Continue)).
Proof. exact L_C79_refuted. Qed.
Print Assumptions C79_refuted.

Theorem C79_care_needed :
  (forall q, In q [clears_other; link_first] -> exists h d, on_list 8 q (u_lhdr (ex_st ex_free)) (u_data (ex_st ex_free)) = Val (tt, h, d) /\
     map d [0; 2; 3; 4] = [(5, 7); (3, 3); (2, 2); (0, 0)] /\ lfirst h = 3 /\ llast h = 2 /\ lcount h = 2) /\
  (exists st d sn st2, u_hist ex_cf ref_tree_ops ref_list_ops st d /\ u_in_list clears_other 1 st sn /\
     u_open ex_cf (u_persist sn (fun _ _ => true)) = Val (Ok st2) /\ no_link ex_U st 3 /\ linked ex_U st2 3) /\
  (exists st d sn st2, u_hist ex_cf ref_tree_ops ref_list_ops st d /\ u_in_list link_first 2 st sn /\
     u_open ex_cf (u_persist sn (fun _ _ => true)) = Val (Ok st2) /\ is_link ex_U st 5 0 0 /\ no_link ex_U st2 5) /\
  (exists st d sn st2, s_hist ex_cf ref_tree_ops ref_list_ops st d /\ s_in_list clears_other 1 st sn /\
     s_open ex_cf (s_persist sn all_grown) = Val (Ok st2) /\ no_link ex_S st 3 /\ linked ex_S st2 3) /\
  (exists st d sn st2, s_hist ex_cf ref_tree_ops ref_list_ops st d /\ s_in_list link_first 2 st sn /\
     s_open ex_cf (s_persist sn all_grown) = Val (Ok st2) /\ is_link ex_S st 5 0 0 /\ no_link ex_S st2 5).
Proof. exact L_C79_care_needed. Qed.
Print Assumptions C79_care_needed.

(** Every kind of call is met, and stopping anywhere in it: 4 is reused; 1 is put on the list;
    2 is taken off it while 3 is deleted. *)
Theorem C79_nonvacuous :
  forall n,
  (n < 12)%nat ->
  (forall cmds i x, In (cmds, i, x) [(ex_free, 4, 4); (CrashClaims.ex_del, 1, 1); (CrashClaims.ex_del, 3, 2)] ->
     exists st d st1 l q sn st2, st = ex_st cmds /\ u_hist ex_cf ref_tree_ops ref_list_ops st d /\ (forall j, linked ex_U st j -> j < c_step ex_cf) /\
       u_list_call ex_cf ref_tree_ops ref_list_ops st i x st1 /\ list_op (u_len st1) (u_lhdr st1) (u_data st1) l x q /\
       u_in_list q n st1 sn /\ u_open ex_cf (u_persist sn (fun _ _ => true)) = Val (Ok st2)) /\
  (forall cmds i x, In (cmds, i, x) [(ex_free, 4, 4); (CrashClaims.ex_del, 1, 1); (CrashClaims.ex_del, 3, 2)] ->
     exists st d st1 l q sn st2, st = ex_sst cmds /\ s_hist ex_cf ref_tree_ops ref_list_ops st d /\ SplitCrashClaims.all_fit ex_cf ref_tree_ops ref_list_ops st /\
       s_list_call ex_cf ref_tree_ops ref_list_ops st i x st1 /\ list_op (s_dlen st1) (s_lhdr st1) (s_data st1) l x q /\
       s_in_list q n st1 sn /\ s_open ex_cf (s_persist sn all_grown) = Val (Ok st2)).
Proof. exact L_C79_nonvacuous. Qed.
Print Assumptions C79_nonvacuous.
