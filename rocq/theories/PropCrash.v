(** Properties of interrupted updates, creations and deletions (C44, C60). *)
From Coq Require Import NArith List Bool Lia.
From Verif Require Import CrashClaims Base Trees Lists TreeInv Spec Iface UnitModel UnitInv UnitOps UnitLinks
  Doublets DoubletsOK Obs Hist Claims TreeImpl UnitHist Crash CrashWrites.
Import ListNotations.
Open Scope N_scope.

(** * C44 *)
Theorem C44_update_is_steps :
  forall cf tops lops st i os ot s t H (h : whandler H) x,
  is_link (unit_links cf tops lops) st i os ot ->
  u_update cf tops h [i] [i; s; t] st x =
    (let* st' := run_steps (update_steps tops i os ot s t) st in
     let (x', f) := h x (mkLink i s t) (mkLink i s t) in Val (st', x', Ok f)).
Proof. exact L_C44_update_is_steps. Qed.
Print Assumptions C44_update_is_steps.

Theorem C44_points_exist :
  forall cf tops lops st d i os ot s t p orc,
  let U := unit_links cf tops lops in
  unit_env cf tops lops -> u_hist cf tops lops st d -> is_link U st i os ot -> separable U st i ->
  (forall j, linked U st j -> j < c_step cf) -> c_step cf - 1 <= c_tmax cf ->
  orc 0%nat (c_page cf) = true -> orc 1%nat (c_step cf) = true ->
  exists st1 st2, at_point tops st i os ot s t p st1 /\ u_open cf (u_persist st1 orc) = Val (Ok st2).
Proof. exact L_C44_points_exist. Qed.
Print Assumptions C44_points_exist.

(** At these points every link is still there and count and each agree. *)
Theorem C44_interrupted_update_partial :
  forall cf tops lops st d i os ot s t p st1 orc st2,
  let U := unit_links cf tops lops in
  unit_env cf tops lops -> u_hist cf tops lops st d -> is_link U st i os ot -> separable U st i ->
  (forall j, linked U st j -> j < c_step cf) ->
  at_point tops st i os ot s t p st1 -> u_open cf (u_persist st1 orc) = Val (Ok st2) ->
  ~ detached_point p os s ->
  frame U st st2 i /\ is_link U st2 i (fst (stored p os ot s t)) (snd (stored p os ot s t)) /\
  exists n, u_count cf st [] = Val n /\ u_count cf st2 [] = Val n /\
    u_each cf (fun m _ => (m + 1, Continue)) [] st2 0 = Val (n, Continue).
Proof. exact L_C44_interrupted_update_partial. Qed.
Print Assumptions C44_interrupted_update_partial.

(** At the other points the link is lost: it is not visited and cannot be read, and count
    still counts it. *)
Theorem C44_link_lost :
  forall cf tops lops st d i os ot s t p st1 orc st2,
  let U := unit_links cf tops lops in
  unit_env cf tops lops -> u_hist cf tops lops st d -> is_link U st i os ot -> separable U st i ->
  (forall j, linked U st j -> j < c_step cf) ->
  at_point tops st i os ot s t p st1 -> u_open cf (u_persist st1 orc) = Val (Ok st2) ->
  detached_point p os s ->
  frame U st st2 i /\ no_link U st2 i /\
  exists n, u_count cf st [] = Val (n + 1) /\ u_count cf st2 [] = Val (n + 1) /\
    u_each cf (fun m _ => (m + 1, Continue)) [] st2 0 = Val (n, Continue).
Proof. exact L_C44_link_lost. Qed.
Print Assumptions C44_link_lost.

(** The full statement fails: three links, link 2 = 1 -> 2 is moved to 2 -> 2, and the
    process stops after the first detach. *)
Theorem C44_refuted :
  exists st d st1 st2,
  u_hist ex_cf ref_tree_ops ref_list_ops st d /\ is_link ex_U st 2 1 2 /\ separable ex_U st 2 /\
  at_point ref_tree_ops st 2 1 2 2 2 (After 1) st1 /\
  u_open ex_cf (u_persist st1 (fun _ _ => true)) = Val (Ok st2) /\
  u_count ex_cf st2 [] = Val 3 /\ u_each ex_cf (fun m _ => (m + 1, Continue)) [] st2 0 = Val (2, Continue).
Proof. exact L_C44_refuted. Qed.
Print Assumptions C44_refuted.

(** The hypotheses above are met, at both kinds of points. *)
Theorem C44_nonvacuous :
  exists st d, u_hist ex_cf ref_tree_ops ref_list_ops st d /\
  is_link ex_U st 2 1 2 /\ is_link ex_U st 3 2 1 /\ separable ex_U st 2 /\ (forall j, linked ex_U st j -> j < c_step ex_cf) /\
  c_step ex_cf - 1 <= c_tmax ex_cf /\ ~ detached_point (After 4) 1 2 /\ detached_point BetweenFields 1 2 /\
  exists st1, at_point ref_tree_ops st 2 1 2 2 2 BetweenFields st1.
Proof. exact L_C44_nonvacuous. Qed.
Print Assumptions C44_nonvacuous.

(** * C60 *)
Theorem C60_interrupted_create :
  forall cf tops lops st d st1 orc st2,
  let U := unit_links cf tops lops in
  unit_env cf tops lops -> u_hist cf tops lops st d ->
  (forall j, linked U st j -> j + 1 < c_step cf) -> 1 < c_step cf ->
  create_point cf lops st st1 -> u_open cf (u_persist st1 orc) = Val (Ok st2) ->
  agreed cf st2 /\
  (same_links U st st2 \/
   exists i, 1 <= i /\ no_link U st i /\ is_link U st2 i 0 0 /\ frame U st st2 i).
Proof. exact L_C60_interrupted_create. Qed.
Print Assumptions C60_interrupted_create.

Theorem C60_delete_is_steps :
  forall cf tops lops st i os ot H (h : whandler H) x st' x' f,
  is_link (unit_links cf tops lops) st i os ot ->
  u_delete cf tops lops h [i] st x = Val (st', x', Ok f) ->
  delete_at tops lops st i os ot Listed st' \/ exists n, delete_at tops lops st i os ot (Trimming n) st'.
Proof. exact L_C60_delete_is_steps. Qed.
Print Assumptions C60_delete_is_steps.

(** At these points the reopened store shows the links after the deletion. *)
Theorem C60_interrupted_delete_partial :
  forall cf tops lops st d i os ot p st1 orc st2,
  let U := unit_links cf tops lops in
  unit_env cf tops lops -> u_hist cf tops lops st d -> is_link U st i os ot -> separable U st i ->
  (forall j, linked U st j -> j < c_step cf) ->
  delete_at tops lops st i os ot p st1 -> u_open cf (u_persist st1 orc) = Val (Ok st2) ->
  p = Listed \/ (exists n, p = Trimming n) ->
  agreed cf st2 /\ no_link U st2 i /\ frame U st st2 i.
Proof. exact L_C60_interrupted_delete_partial. Qed.
Print Assumptions C60_interrupted_delete_partial.

(** Before the list of unused links is touched, the link is still there, emptied. *)
Theorem C60_half_deleted :
  forall cf tops lops st d i os ot st1 orc st2,
  let U := unit_links cf tops lops in
  unit_env cf tops lops -> u_hist cf tops lops st d -> is_link U st i os ot -> separable U st i ->
  (forall j, linked U st j -> j < c_step cf) ->
  delete_at tops lops st i os ot Zeroed st1 -> u_open cf (u_persist st1 orc) = Val (Ok st2) ->
  agreed cf st2 /\ is_link U st2 i 0 0 /\ frame U st st2 i.
Proof. exact L_C60_half_deleted. Qed.
Print Assumptions C60_half_deleted.

(** In the middle of a round of the trim loop, a link deleted earlier is there again. *)
Theorem C60_deleted_link_returns :
  forall cf tops lops st d i os ot n st1 orc st2,
  let U := unit_links cf tops lops in
  unit_env cf tops lops -> u_hist cf tops lops st d -> is_link U st i os ot -> separable U st i ->
  (forall j, linked U st j -> j < c_step cf) ->
  delete_at tops lops st i os ot (Detaching n) st1 -> u_open cf (u_persist st1 orc) = Val (Ok st2) ->
  agreed cf st2 /\ no_link U st2 i /\
  exists k, 1 <= k < i /\ no_link U st k /\ is_link U st2 k 0 0 /\
    forall j, j <> i -> j <> k -> li_get U st2 j = li_get U st j.
Proof. exact L_C60_deleted_link_returns. Qed.
Print Assumptions C60_deleted_link_returns.

Theorem C60_refuted :
  exists st d,
  u_hist ex_cf ref_tree_ops ref_list_ops st d /\ is_link ex_U st 3 2 1 /\ no_link ex_U st 2 /\ separable ex_U st 3 /\
  (exists st1 st2, delete_at ref_tree_ops ref_list_ops st 3 2 1 Zeroed st1 /\
     u_open ex_cf (u_persist st1 (fun _ _ => true)) = Val (Ok st2) /\ is_link ex_U st2 3 0 0) /\
  (exists st1 st2, delete_at ref_tree_ops ref_list_ops st 3 2 1 (Detaching 0) st1 /\
     u_open ex_cf (u_persist st1 (fun _ _ => true)) = Val (Ok st2) /\ no_link ex_U st2 3 /\ is_link ex_U st2 2 0 0).
Proof. exact L_C60_refuted. Qed.
Print Assumptions C60_refuted.

Theorem C60_nonvacuous :
  (exists st d st1, u_hist ex_cf ref_tree_ops ref_list_ops st d /\ linked ex_U st 6 /\
     (forall j, linked ex_U st j -> j + 1 < c_step ex_cf) /\ h_reserved st - 1 <= h_alloc st /\
     u_alloc_mem st (u_len st + c_step ex_cf) = Some st1 /\
     create_point ex_cf ref_list_ops st st1) /\
  exists st d, u_hist ex_cf ref_tree_ops ref_list_ops st d /\ is_link ex_U st 1 1 1 /\ is_link ex_U st 3 2 1 /\
    separable ex_U st 1 /\ separable ex_U st 3 /\ (forall j, linked ex_U st j -> j < c_step ex_cf) /\
    (exists st1 st2, delete_at ref_tree_ops ref_list_ops st 1 1 1 Listed st1 /\ u_open ex_cf (u_persist st1 (fun _ _ => true)) = Val (Ok st2)) /\
    (exists st1 st2, delete_at ref_tree_ops ref_list_ops st 3 2 1 (Trimming 0) st1 /\ u_open ex_cf (u_persist st1 (fun _ _ => true)) = Val (Ok st2)) /\
    (exists st1 st2, delete_at ref_tree_ops ref_list_ops st 3 2 1 (Trimming 1) st1 /\ u_open ex_cf (u_persist st1 (fun _ _ => true)) = Val (Ok st2)).
Proof. exact L_C60_nonvacuous. Qed.
Print Assumptions C60_nonvacuous.
