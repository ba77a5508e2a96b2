(** Property theorems: all later answers *)
From Coq Require Import NArith List Bool Lia Permutation.
From Verif Require Import Future Base Trees Lists TreeImpl Spec Iface Doublets DoubletsOK Obs Hist Claims
  UnitModel UnitInv UnitOps UnitLinks UnitHist SplitModel SplitInv SplitReads SplitOps SplitWrites SplitLinks SplitHist SplitClaims.
Import ListNotations.
Open Scope N_scope.

(** A link created and deleted at once leaves no trace. *)
Theorem C67_create_delete_unit :
  forall cf tops lops st d st1 i st2 r,
  let U := unit_links cf tops lops in
  unit_env cf tops lops -> cfg_room cf -> u_hist cf tops lops st d ->
  d_create U st = Val (st1, Ok i) -> d_delete U i st1 = Val (st2, r) -> unit_same cf tops lops st st2.
Proof. exact L_C67_create_delete_unit. Qed.
Print Assumptions C67_create_delete_unit.

Theorem C67_create_delete_split :
  forall cf tops lops st d st1 i st2 r,
  let SL := split_links cf tops lops in
  unit_env cf tops lops -> cfg_room cf -> s_hist cf tops lops st d ->
  d_create SL st = Val (st1, Ok i) -> s_okc SL st st1 -> d_delete SL i st1 = Val (st2, r) -> split_same cf tops lops st st2.
Proof. exact L_C67_create_delete_split. Qed.
Print Assumptions C67_create_delete_split.

(** An update and the update back leave no trace. *)
Theorem C67_update_back_unit :
  forall cf tops lops st d i s0 t0 s t st1 r1 st2 r2,
  let U := unit_links cf tops lops in
  unit_env cf tops lops -> cfg_room cf -> u_hist cf tops lops st d -> is_link U st i s0 t0 ->
  separable U st i -> d_update U i s t st = Val (st1, r1) ->
  separable U st1 i -> d_update U i s0 t0 st1 = Val (st2, r2) -> unit_same cf tops lops st st2.
Proof. exact L_C67_update_back_unit. Qed.
Print Assumptions C67_update_back_unit.

Theorem C67_update_back_split :
  forall cf tops lops st d i s0 t0 s t st1 r1 st2 r2,
  let SL := split_links cf tops lops in
  unit_env cf tops lops -> cfg_room cf -> s_hist cf tops lops st d -> is_link SL st i s0 t0 ->
  s_oku SL st i s t -> d_update SL i s t st = Val (st1, r1) ->
  s_oku SL st1 i s0 t0 -> d_update SL i s0 t0 st1 = Val (st2, r2) -> split_same cf tops lops st st2.
Proof. exact L_C67_update_back_split. Qed.
Print Assumptions C67_update_back_split.

(** A link that is not the last one, deleted and created again, leaves no trace. *)
Theorem C67_delete_recreate_unit :
  forall cf tops lops st d i s t j st1 r1 st2 k st3 r3,
  let U := unit_links cf tops lops in
  unit_env cf tops lops -> cfg_room cf -> u_hist cf tops lops st d -> is_link U st i s t -> separable U st i ->
  linked U st j -> i < j -> d_delete U i st = Val (st1, r1) -> d_create U st1 = Val (st2, Ok k) ->
  d_update U i s t st2 = Val (st3, r3) -> k = i /\ unit_same cf tops lops st st3.
Proof. exact L_C67_delete_recreate_unit. Qed.
Print Assumptions C67_delete_recreate_unit.

Theorem C67_delete_recreate_split :
  forall cf tops lops st d i s t j st1 r1 st2 k st3 r3,
  let SL := split_links cf tops lops in
  unit_env cf tops lops -> cfg_room cf -> s_hist cf tops lops st d -> is_link SL st i s t -> s_okd SL st i ->
  linked SL st j -> i < j -> d_delete SL i st = Val (st1, r1) -> d_create SL st1 = Val (st2, Ok k) -> s_okc SL st1 st2 ->
  (t = 0 -> s = 0) -> d_update SL i s t st2 = Val (st3, r3) -> k = i /\ split_same cf tops lops st st3.
Proof. exact L_C67_delete_recreate_split. Qed.
Print Assumptions C67_delete_recreate_split.

(** Updates of two links can be swapped. *)
Theorem C67_updates_commute_unit :
  forall cf tops lops st d i s t j s' t' st1 r1 st2 r2 st3 r3 st4 r4,
  let U := unit_links cf tops lops in
  unit_env cf tops lops -> cfg_room cf -> u_hist cf tops lops st d -> linked U st i -> linked U st j -> i <> j ->
  separable U st i -> d_update U i s t st = Val (st1, r1) -> separable U st1 j -> d_update U j s' t' st1 = Val (st2, r2) ->
  separable U st j -> d_update U j s' t' st = Val (st3, r3) -> separable U st3 i -> d_update U i s t st3 = Val (st4, r4) ->
  unit_same cf tops lops st2 st4.
Proof. exact L_C67_updates_commute_unit. Qed.
Print Assumptions C67_updates_commute_unit.

Theorem C67_updates_commute_split :
  forall cf tops lops st d i s t j s' t' st1 r1 st2 r2 st3 r3 st4 r4,
  let SL := split_links cf tops lops in
  unit_env cf tops lops -> cfg_room cf -> s_hist cf tops lops st d -> linked SL st i -> linked SL st j -> i <> j ->
  s_oku SL st i s t -> d_update SL i s t st = Val (st1, r1) -> s_oku SL st1 j s' t' -> d_update SL j s' t' st1 = Val (st2, r2) ->
  s_oku SL st j s' t' -> d_update SL j s' t' st = Val (st3, r3) -> s_oku SL st3 i s t -> d_update SL i s t st3 = Val (st4, r4) ->
  split_same cf tops lops st2 st4.
Proof. exact L_C67_updates_commute_split. Qed.
Print Assumptions C67_updates_commute_split.

(** Closing and opening again leaves no trace. *)
Theorem C67_reopen_unit :
  forall cf tops lops st d st',
  unit_env cf tops lops -> cfg_room cf -> u_hist cf tops lops st d ->
  u_reopen cf tops lops st st' -> unit_same cf tops lops st st'.
Proof. exact L_C67_reopen_unit. Qed.
Print Assumptions C67_reopen_unit.

Theorem C67_reopen_split :
  forall cf tops lops st d st',
  unit_env cf tops lops -> cfg_room cf -> s_hist cf tops lops st d ->
  s_reopen cf tops lops st st' -> split_same cf tops lops st st'.
Proof. exact L_C67_reopen_split. Qed.
Print Assumptions C67_reopen_split.

(** The implementations of the trees and of the lists do not show: two new stores with
    different ones answer alike, and a memory filled with one can be worked on with another. *)
Theorem C67_other_trees_unit :
  forall cf tops lops tops2 lops2,
  unit_env cf tops lops -> unit_env cf tops2 lops2 -> cfg_room cf ->
  (forall st st', u_start cf st -> u_start cf st' -> unit_future cf tops lops st (unit_links cf tops2 lops2) st') /\
  (forall st d, u_hist cf tops lops st d -> unit_future cf tops lops st (unit_links cf tops2 lops2) st).
Proof. exact L_C67_other_trees_unit. Qed.
Print Assumptions C67_other_trees_unit.

Theorem C67_other_trees_split :
  forall cf tops lops tops2 lops2,
  unit_env cf tops lops -> unit_env cf tops2 lops2 -> cfg_room cf ->
  (forall st st', s_start cf st -> s_start cf st' -> split_future cf tops lops st (split_links cf tops2 lops2) st') /\
  (forall st d, s_hist cf tops lops st d -> split_future cf tops lops st (split_links cf tops2 lops2) st).
Proof. exact L_C67_other_trees_split. Qed.
Print Assumptions C67_other_trees_split.

(** A new split store and a new unit store answer alike, for a client within the discipline
    of the split store. *)
Theorem C67_split_unit :
  forall cf tops lops tops2 lops2,
  unit_env cf tops lops -> unit_env cf tops2 lops2 -> cfg_room cf ->
  forall st st', s_start cf st -> u_start cf st' -> split_future cf tops lops st (unit_links cf tops2 lops2) st'.
Proof. exact L_C67_split_unit. Qed.
Print Assumptions C67_split_unit.

(** A link that was last is not created again when there is a hole below it. *)
Theorem C67_delete_recreate_last_refuted :
  exists st d st1 r1 st2 k,
  u_hist ex_cf ref_tree_ops ref_list_ops st d /\ is_link ex_U st 3 2 1 /\ separable ex_U st 3 /\
  d_delete ex_U 3 st = Val (st1, r1) /\ d_create ex_U st1 = Val (st2, Ok k) /\ k <> 3.
Proof. exact L_C67_delete_recreate_last_refuted. Qed.
Print Assumptions C67_delete_recreate_last_refuted.

Theorem C67_nonvacuous :
  cfg_room ex_cf /\ unit_env ex_cf ref_tree_ops ref_list_ops /\
  (exists st d st1 st2 st3 st4, u_hist ex_cf ref_tree_ops ref_list_ops st d /\ distinct_pairs ex_U st /\
     d_create ex_U st = Val (st1, Ok 4) /\ d_delete ex_U 4 st1 = Val (st2, Ok 0) /\
     d_delete ex_U 2 st = Val (st3, Ok 0) /\ d_create ex_U st3 = Val (st4, Ok 2) /\ linked ex_U st 3 /\
     let q := [c_any ex_cf; 1; c_any ex_cf] in
     both ex_U ex_U [OEach q; ODelete 2; OGet 2; OCount q; OCreate; OCreate] st st2 =
       Val [(AVisited [mkLink 1 1 1; mkLink 2 1 2], AVisited [mkLink 1 1 1; mkLink 2 1 2]); (ACall (Ok 0), ACall (Ok 0));
            (AGot None, AGot None); (ACounted 1, ACounted 1); (ACall (Ok 2), ACall (Ok 2)); (ACall (Ok 4), ACall (Ok 4))]) /\
  (exists st d st1 st2, s_hist ex_cf ref_tree_ops ref_list_ops st d /\ distinct_pairs ex_S st /\
     d_create ex_S st = Val (st1, Ok 4) /\ s_okc ex_S st st1 /\ d_delete ex_S 4 st1 = Val (st2, Ok 0) /\
     let q := [c_any ex_cf; 1; c_any ex_cf] in
     disciplined ex_S (s_okc ex_S) (s_oku ex_S) (s_okd ex_S) (split_query ex_cf ex_S) [OEach q; OUpdate 3 2 4; OGet 3; ODelete 2; OCount []] st /\
     both ex_S ex_U [OEach q; OUpdate 3 2 4; OGet 3; ODelete 2; OCount []] st (ex_st ex3) =
       Val [(AVisited [mkLink 1 1 1; mkLink 2 1 2], AVisited [mkLink 1 1 1; mkLink 2 1 2]); (ACall (Ok 3), ACall (Ok 3));
            (AGot (Some (mkLink 3 2 4)), AGot (Some (mkLink 3 2 4))); (ACall (Ok 0), ACall (Ok 0)); (ACounted 2, ACounted 2)]).
Proof. exact L_C67_nonvacuous. Qed.
Print Assumptions C67_nonvacuous.
