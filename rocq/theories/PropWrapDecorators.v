(** The decorators and the C interface in builds without overflow checks (C102). *)
From Coq Require Import NArith PeanoNat List Bool Lia Permutation.
From Verif Require Import WrapDecorators Base Trees Lists Spec Iface UnitModel UnitInv UnitOps UnitLinks LinkModel SplitModel Forest
  SplitInv SplitReads SplitOps SplitWrites SplitLinks Doublets DoubletsOK Obs Hist Claims TreeImpl UnitHist SplitHist UnitClaims SplitClaims
  DefaultClaims SplitDefaults Overflow Decorators DecoratorClaims Ffi WrapModel WrapClaims.
Import ListNotations.
Open Scope N_scope.

(** Every decorator keeps what its store has: a call that returns in a checked build returns the
    same in the other. *)
Theorem C102_calls :
  forall cf S (I J : LinksI S),
  calls_below I J ->
  calls_below (unique_validator cf I) (unique_validator cf J) /\
  calls_below (unique_resolver cf I) (unique_resolver cf J) /\
  calls_below (usages_validator cf I) (wusages_validator cf J) /\
  calls_below (non_null_deletion_resolver cf I) (non_null_deletion_resolver cf J) /\
  calls_below (cascade_usages_resolver cf I) (cascade_usages_resolver cf J) /\
  calls_below (cascade_unique_resolver cf I) (cascade_unique_resolver cf J).
Proof. exact L_C102_calls. Qed.
Print Assumptions C102_calls.

(** So does the C interface. *)
Theorem C102_ffi :
  forall fc S (I J : LinksI S),
  calls_below I J ->
  calls_below (boxed I) (boxed J) /\
  (forall H (cb : ccallback H) p n st x v, f_create fc I cb p n st x = Val v -> f_create fc J cb p n st x = Val v) /\
  (forall st v, f_smart_create fc I st = Val v -> f_smart_create fc J st = Val v) /\
  (forall i s t st v, f_smart_update fc I i s t st = Val v -> f_smart_update fc J i s t st = Val v) /\
  (forall H (cb : ecallback H) p n st x v, f_each fc I cb p n st x = Val v -> f_each fc J cb p n st x = Val v) /\
  (forall p n st v, f_count I p n st = Val v -> f_count J p n st = Val v) /\
  (forall H (cb : ccallback H) p n p' n' st x v, f_update fc I cb p n p' n' st x = Val v -> f_update fc J cb p n p' n' st x = Val v) /\
  (forall H (cb : ccallback H) p n st x v, f_delete fc I cb p n st x = Val v -> f_delete fc J cb p n st x = Val v).
Proof. exact L_C102_ffi. Qed.
Print Assumptions C102_ffi.

(** UsagesValidator refuses exactly the used links, whatever the counts are reduced to. *)
Theorem C102_usages_validator_unit :
  forall cf tops lops st d i,
  let W := wunit_links cf tops lops in
  unit_env cf tops lops -> wu_hist cf tops lops st d ->
  refuses_used W (wusages_validator cf W) st i.
Proof. exact L_C102_usages_validator_unit. Qed.
Print Assumptions C102_usages_validator_unit.

Theorem C102_usages_validator_split :
  forall cf tops lops st d i,
  let W := wsplit_links cf tops lops in
  unit_env cf tops lops -> ws_hist cf tops lops st d ->
  refuses_used W (wusages_validator cf W) st i.
Proof. exact L_C102_usages_validator_split. Qed.
Print Assumptions C102_usages_validator_split.

Theorem C102_nonvacuous :
  unit_env ov_cf ref_tree_ops ref_list_ops /\ c_iend ov_cf + 1 + c_step ov_cf <= c_tmax ov_cf /\
  (exists st d, wu_hist ov_cf ref_tree_ops ref_list_ops st d /\ linked ov_W st 1 /\ wd_has_usages ov_cf ov_W st 1 = Val false /\
     li_delete (usages_validator ov_cf (unit_links ov_cf ref_tree_ops ref_list_ops)) unit go [1] st tt = Panic /\
     users_told (li_delete (wusages_validator ov_cf ov_W) unit go [1] st tt) = Some [2; 3; 4; 5; 6; 7; 8; 9; 2; 3; 4; 5; 6; 7; 8; 9]) /\
  (exists st d, ws_hist ov_cf ref_tree_ops ref_list_ops st d /\ linked ov_WS st 1 /\ wd_has_usages ov_cf ov_WS st 1 = Val false /\
     li_delete (usages_validator ov_cf (split_links ov_cf ref_tree_ops ref_list_ops)) unit go [1] st tt = Panic /\
     users_stold (li_delete (wusages_validator ov_cf ov_WS) unit go [1] st tt) = Some [2; 3; 4; 5; 6; 7; 8; 9; 2; 3; 4; 5; 6; 7; 8; 9]).
Proof. exact L_C102_nonvacuous. Qed.
Print Assumptions C102_nonvacuous.
