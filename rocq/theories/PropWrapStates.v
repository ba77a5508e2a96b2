(** Builds without overflow checks in any state, in free use and after interruptions (C103). *)
From Coq Require Import NArith PeanoNat List Bool Lia Permutation.
From Verif Require Import WrapStates Base Trees Lists Spec Iface UnitModel UnitInv UnitOps UnitLinks LinkModel SplitModel Forest
  SplitInv SplitReads SplitOps SplitWrites SplitLinks Doublets DoubletsOK Obs Hist Claims TreeImpl UnitHist SplitHist UnitClaims SplitClaims
  Crash Scars AfterCrash SplitLife SplitScars SplitAfterCrash WrapModel WrapClaims.
Import ListNotations.
Open Scope N_scope.

(** Every modifying call, and reading and visiting links, on every state of the single-memory
    store, also of damaged files: the same outcome, be it a value, a panic or worse. *)
Theorem C103_unit :
  forall cf tops lops st,
  let U := unit_links cf tops lops in let W := wunit_links cf tops lops in cfg_ok cf ->
  (h_reserved st <> 0 -> forall H (h : whandler H) q x, li_create W H h q st x = li_create U H h q st x) /\
  (forall H (h : whandler H) q ch x, li_update W H h q ch st x = li_update U H h q ch st x) /\
  (forall H (h : whandler H) q x, li_delete W H h q st x = li_delete U H h q st x) /\
  (forall H (h : rhandler H) q x, li_each W H h q st x = li_each U H h q st x) /\
  (forall i, li_get W st i = li_get U st i).
Proof. exact L_C103_unit. Qed.
Print Assumptions C103_unit.

(** Opening makes the condition true of any file, and it stays so in use and after interruptions. *)
Theorem C103_reserved :
  forall cf tops lops,
  unit_env cf tops lops ->
  (forall m st, u_open cf m = Val (Ok st) -> h_reserved st <> 0) /\
  (forall st L C, life cf tops lops st L C -> h_reserved st <> 0).
Proof. exact L_C103_reserved. Qed.
Print Assumptions C103_reserved.

(** Free use of the two-memory store: creations, and the deletions its client may ask for. *)
Theorem C103_free_use :
  forall cf tops lops st Ms Mt,
  let S := split_links cf tops lops in let W := wsplit_links cf tops lops in
  unit_env cf tops lops -> slife cf tops lops st Ms Mt ->
  (forall H (h : whandler H) q x, li_create W H h q st x = li_create S H h q st x) /\
  (forall i, no_link S st i \/ (may_touch cf tops lops st Ms Mt i /\
       forall j s t, is_link S st j s t -> j <> i -> (s = i /\ ~ Ms j) \/ (t = i /\ ~ Mt j) -> separable S st j) ->
     forall H (h : whandler H) x, li_delete W H h [i] st x = li_delete S H h [i] st x).
Proof. exact L_C103_free_use. Qed.
Print Assumptions C103_free_use.

(** And after interruptions. *)
Theorem C103_interrupted :
  forall cf tops lops st D sP tP,
  let S := split_links cf tops lops in let W := wsplit_links cf tops lops in
  unit_env cf tops lops -> clife cf tops lops st D sP tP ->
  (forall H (h : whandler H) q x, li_create W H h q st x = li_create S H h q st x) /\
  (forall i, no_link S st i \/ (exists os ot, may_delete D sP tP i os ot) ->
     forall H (h : whandler H) x, li_delete W H h [i] st x = li_delete S H h [i] st x).
Proof. exact L_C103_interrupted. Qed.
Print Assumptions C103_interrupted.

Theorem C103_condition :
  h_reserved ex_unreserved = 0 /\
  ex_create_of (unit_links ex_cf ref_tree_ops ref_list_ops) ex_unreserved = Panic /\
  exists st', ex_create_of (wunit_links ex_cf ref_tree_ops ref_list_ops) ex_unreserved = Val (st', tt, Ok Continue) /\
    h_alloc st' = 4 /\ u_len st' = 4 /\ li_get (wunit_links ex_cf ref_tree_ops ref_list_ops) st' 4 = UB.
Proof. exact L_C103_condition. Qed.
Print Assumptions C103_condition.

Theorem C103_nonvacuous :
  unit_env ex_cf ref_tree_ops ref_list_ops /\
  (let U := unit_links ex_cf ref_tree_ops ref_list_ops in let W := wunit_links ex_cf ref_tree_ops ref_list_ops in
   h_reserved ex_damaged <> 0 /\ li_count U ex_damaged [] = Panic /\ li_count W ex_damaged [] = Val (c_tmax ex_cf - 1) /\
   exists st', ex_create_of W ex_damaged = Val (st', tt, Ok Continue) /\ h_alloc st' = 4) /\
  (exists st Ms Mt, slife ex_cf ref_tree_ops ref_list_ops st Ms Mt /\ Ms 1 /\ is_link ex_S st 1 3 3 /\
     linked ex_S st 3 /\ may_touch ex_cf ref_tree_ops ref_list_ops st Ms Mt 3 /\
     forall j s t, is_link ex_S st j s t -> j <> 3 -> (s = 3 /\ ~ Ms j) \/ (t = 3 /\ ~ Mt j) -> separable ex_S st j) /\
  (exists st D sP tP, clife ex_cf ref_tree_ops ref_list_ops st D sP tP /\ D 2 = Some (3, 1) /\ no_link ex_S st 2 /\ may_delete D sP tP 1 1 1).
Proof. exact L_C103_nonvacuous. Qed.
Print Assumptions C103_nonvacuous.
