(** How much memory the stores use. *)
From Coq Require Import NArith List Bool Lia Permutation Sorted.
From Verif Require Import MemUse Base Trees Lists Spec Iface UnitModel UnitInv UnitOps UnitLinks LinkModel SplitModel Forest
  SplitInv SplitReads SplitOps SplitWrites SplitLinks Doublets Obs DoubletsOK Hist Claims TreeImpl UnitHist SplitHist
  SplitClaims UnitClaims.
Import ListNotations.
Open Scope N_scope.

(** The memory grows only in a creation that succeeds, by one step, and only if there
    is no hole and at most one cell besides the header is unused. *)
Theorem C59_unit_create :
  forall cf tops lops st d H (h : whandler H) q x st' x' r,
  let U := unit_links cf tops lops in
  unit_env cf tops lops -> u_hist cf tops lops st d ->
  li_create U H h q st x = Val (st', x', r) ->
  u_len st' = u_len st \/
  (u_len st' = u_len st + c_step cf /\ (exists f, r = Ok f) /\ no_hole U st /\
   exists n, li_count U st [] = Val n /\ u_len st <= n + 2).
Proof. exact L_C59_unit_create. Qed.
Print Assumptions C59_unit_create.

(** Updates and deletions never change the size of the memory, whatever the state. *)
Theorem C59_unit_others :
  forall cf tops lops st H (h : whandler H) q ch x st' x' r,
  let U := unit_links cf tops lops in
  li_update U H h q ch st x = Val (st', x', r) \/ li_delete U H h q st x = Val (st', x', r) ->
  u_len st' = u_len st.
Proof. exact L_C59_unit_others. Qed.
Print Assumptions C59_unit_others.

(** Every history goes through some states ... *)
Theorem C59_unit_traces :
  forall cf tops lops st d, u_hist cf tops lops st d -> exists l, u_trace cf tops lops (st :: l).
Proof. exact L_C59_unit_traces. Qed.
Print Assumptions C59_unit_traces.

(** ... and the memory in the last of them is bounded by the largest number of links in
    any of them, however many were created. *)
Theorem C59_unit_bound :
  forall cf tops lops st l p,
  let U := unit_links cf tops lops in
  unit_env cf tops lops -> u_trace cf tops lops (st :: l) -> at_most U (st :: l) p ->
  u_len st <= p + 1 + c_step cf.
Proof. exact L_C59_unit_bound. Qed.
Print Assumptions C59_unit_bound.

Theorem C59_split_create :
  forall cf tops lops st d H (h : whandler H) q x st' x' r,
  let SL := split_links cf tops lops in
  unit_env cf tops lops -> s_hist cf tops lops st d ->
  li_create SL H h q st x = Val (st', x', r) ->
  (s_dcap st' = s_dcap st /\ s_dlen st' = s_dlen st /\ s_ilen st' = s_ilen st) \/
  (s_dcap st' = s_dcap st + c_step cf /\ s_dlen st' = s_dcap st' /\ s_ilen st' = s_ilen st + c_step cf /\
   (exists f, r = Ok f) /\ no_hole SL st /\
   exists n, li_count SL st [] = Val n /\ s_ilen st <= n + 2).
Proof. exact L_C59_split_create. Qed.
Print Assumptions C59_split_create.

Theorem C59_split_others :
  forall cf tops lops st H (h : whandler H) q ch x st' x' r,
  let SL := split_links cf tops lops in
  li_update SL H h q ch st x = Val (st', x', r) \/ li_delete SL H h q st x = Val (st', x', r) ->
  s_dcap st' = s_dcap st /\ s_dlen st' = s_dlen st /\ s_ilen st' = s_ilen st.
Proof. exact L_C59_split_others. Qed.
Print Assumptions C59_split_others.

Theorem C59_split_traces :
  forall cf tops lops st d, s_hist cf tops lops st d -> exists l, s_trace cf tops lops (st :: l).
Proof. exact L_C59_split_traces. Qed.
Print Assumptions C59_split_traces.

Theorem C59_split_bound :
  forall cf tops lops st l p,
  let SL := split_links cf tops lops in
  unit_env cf tops lops -> s_trace cf tops lops (st :: l) -> at_most SL (st :: l) p ->
  s_dcap st = s_ilen st /\ s_ilen st <= N.max (p + 1) (N.max (c_page cf) (c_step cf)) + c_step cf.
Proof. exact L_C59_split_bound. Qed.
Print Assumptions C59_split_bound.

(** Twenty creations, never more than two links: the memory keeps its first size; the bound
    is reached by seven links (the seventh creation grows the memory although a cell is
    left). *)
Theorem C59_nonvacuous :
  (exists st l, u_trace ex_cf ref_tree_ops ref_list_ops (st :: l) /\ at_most ex_U (st :: l) 2 /\ length l = 60%nat /\ u_len st = 8) /\
  (exists st l, u_trace ex_cf ref_tree_ops ref_list_ops (st :: l) /\ at_most ex_U (st :: l) 7 /\ u_len st = 7 + 1 + c_step ex_cf) /\
  (exists st l, s_trace ex_cf ref_tree_ops ref_list_ops (st :: l) /\ at_most ex_S (st :: l) 2 /\ length l = 60%nat /\ s_ilen st = 8) /\
  (exists st l, s_trace ex_cf ref_tree_ops ref_list_ops (st :: l) /\ at_most ex_S (st :: l) 7 /\ s_ilen st = 7 + 1 + c_step ex_cf).
Proof. exact L_C59_nonvacuous. Qed.
Print Assumptions C59_nonvacuous.
