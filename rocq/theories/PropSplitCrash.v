(** Properties of interrupted calls of the store with two memories (C69, C70). *)
From Coq Require Import NArith List Bool Lia Permutation.
From Verif Require Import SplitCrashClaims Base Trees Lists Spec Iface UnitModel UnitInv UnitOps LinkModel SplitModel Forest
  SplitInv SplitReads SplitOps SplitWrites SplitLinks Doublets DoubletsOK Obs Hist Claims UnitHist TreeImpl SplitHist SplitCrash.
Import ListNotations.
Open Scope N_scope.

(** * C69 *)
Theorem C69_update_is_steps :
  forall cf tops lops st i os ot s t H (h : whandler H) x,
  is_link (split_links cf tops lops) st i os ot ->
  s_update cf tops h [i] [i; s; t] st x =
    (let* st' := s_stop tops st i os ot s t 6 in
     let (x', f) := h x (mkLink i os ot) (mkLink i s t) in Val (st', x', Ok f)).
Proof. exact L_C69_update_is_steps. Qed.
Print Assumptions C69_update_is_steps.

Theorem C69_points_exist :
  forall cf tops lops st d i os ot s t k,
  let SL := split_links cf tops lops in
  unit_env cf tops lops -> s_hist cf tops lops st d -> is_link SL st i os ot -> s_oku SL st i s t ->
  all_fit cf tops lops st -> c_page cf + c_step cf * 2 <= c_tmax cf ->
  exists st1 st2, s_stop tops st i os ot s t k = Val st1 /\ s_open cf (s_persist st1 all_grown) = Val (Ok st2).
Proof. exact L_C69_points_exist. Qed.
Print Assumptions C69_points_exist.

(** At these points every link is still there and count and each agree. *)
Theorem C69_interrupted_update_partial :
  forall cf tops lops st d i os ot s t k st1 orc st2,
  let SL := split_links cf tops lops in
  unit_env cf tops lops -> s_hist cf tops lops st d -> is_link SL st i os ot -> s_oku SL st i s t ->
  last_fits cf tops lops st ->
  s_stop tops st i os ot s t k = Val st1 -> s_open cf (s_persist st1 orc) = Val (Ok st2) ->
  ~ s_detached k os s ->
  frame SL st st2 i /\ is_link SL st2 i (fst (s_fields k os ot s t)) (snd (s_fields k os ot s t)) /\
  exists n, s_count cf st [] = Val n /\ s_count cf st2 [] = Val n /\
    s_each cf (fun m _ => (m + 1, Continue)) [] st2 0 = Val (n, Continue).
Proof. exact L_C69_interrupted_update_partial. Qed.
Print Assumptions C69_interrupted_update_partial.

(** At the other points the link is lost: it is not visited and cannot be read, and count
    still counts it. *)
Theorem C69_link_lost :
  forall cf tops lops st d i os ot s t k st1 orc st2,
  let SL := split_links cf tops lops in
  unit_env cf tops lops -> s_hist cf tops lops st d -> is_link SL st i os ot -> s_oku SL st i s t ->
  last_fits cf tops lops st ->
  s_stop tops st i os ot s t k = Val st1 -> s_open cf (s_persist st1 orc) = Val (Ok st2) ->
  s_detached k os s ->
  frame SL st st2 i /\ no_link SL st2 i /\
  exists n, s_count cf st [] = Val (n + 1) /\ s_count cf st2 [] = Val (n + 1) /\
    s_each cf (fun m _ => (m + 1, Continue)) [] st2 0 = Val (n, Continue).
Proof. exact L_C69_link_lost. Qed.
Print Assumptions C69_link_lost.

(** After the first detach the link can be read, but the search by its source misses it. *)
Theorem C69_missed_by_source :
  forall cf tops lops st d i os ot s t st1 orc st2,
  let SL := split_links cf tops lops in
  unit_env cf tops lops -> s_hist cf tops lops st d -> is_link SL st i os ot -> s_oku SL st i s t ->
  last_fits cf tops lops st -> linked SL st os ->
  s_stop tops st i os ot s t 1 = Val st1 -> s_open cf (s_persist st1 orc) = Val (Ok st2) ->
  is_link SL st2 i os ot /\
  exists n, s_count cf st [c_any cf; os; c_any cf] = Val (n + 1) /\ s_count cf st2 [c_any cf; os; c_any cf] = Val n.
Proof. exact L_C69_missed_by_source. Qed.
Print Assumptions C69_missed_by_source.

Theorem C69_refuted :
  exists st d st1 st2,
  s_hist ex_cf ref_tree_ops ref_list_ops st d /\ is_link ex_S st 2 1 2 /\ s_oku ex_S st 2 3 1 /\
  s_stop ref_tree_ops st 2 1 2 3 1 2 = Val st1 /\
  s_open ex_cf (s_persist st1 all_grown) = Val (Ok st2) /\ no_link ex_S st2 2 /\
  s_count ex_cf st2 [] = Val 3 /\ s_each ex_cf (fun m _ => (m + 1, Continue)) [] st2 0 = Val (2, Continue).
Proof. exact L_C69_refuted. Qed.
Print Assumptions C69_refuted.

(** The hypotheses above are met, at both kinds of points. *)
Theorem C69_nonvacuous :
  exists st d, s_hist ex_cf ref_tree_ops ref_list_ops st d /\
  is_link ex_S st 1 1 1 /\ is_link ex_S st 2 1 2 /\ is_link ex_S st 3 2 1 /\ s_oku ex_S st 2 3 1 /\
  all_fit ex_cf ref_tree_ops ref_list_ops st /\ last_fits ex_cf ref_tree_ops ref_list_ops st /\
  c_page ex_cf + c_step ex_cf * 2 <= c_tmax ex_cf /\
  ~ s_detached 1 1 3 /\ s_detached 2 1 3 /\ s_detached 3 1 3 /\ s_detached 4 1 3 /\ s_detached 5 1 3 /\ ~ s_detached 6 1 3 /\
  (forall k, (k < 7)%nat -> exists st1 st2, s_stop ref_tree_ops st 2 1 2 3 1 k = Val st1 /\
     s_open ex_cf (s_persist st1 all_grown) = Val (Ok st2)).
Proof. exact L_C69_nonvacuous. Qed.
Print Assumptions C69_nonvacuous.

Theorem C70_interrupted_create :
  forall cf tops lops st d st1 orc st2,
  let SL := split_links cf tops lops in
  unit_env cf tops lops -> s_hist cf tops lops st d -> s_okc SL st st1 ->
  (forall j, linked SL st j -> j + 1 < c_page cf \/ j + 1 < c_step cf) -> 1 < c_step cf ->
  s_create_point cf tops lops st st1 -> s_open cf (s_persist st1 orc) = Val (Ok st2) ->
  s_agreed cf st2 /\
  (same_links SL st st2 \/
   exists i, 1 <= i /\ no_link SL st i /\ is_link SL st2 i 0 0 /\ frame SL st st2 i).
Proof. exact L_C70_interrupted_create. Qed.
Print Assumptions C70_interrupted_create.

Theorem C70_delete_is_steps :
  forall cf tops lops st d i os ot H (h : whandler H) x st' x' f,
  let SL := split_links cf tops lops in
  unit_env cf tops lops -> s_hist cf tops lops st d -> is_link SL st i os ot -> s_okd SL st i ->
  s_delete cf tops lops h [i] st x = Val (st', x', Ok f) ->
  s_delete_at cf tops lops st i os ot SListed st' \/ exists n, s_delete_at cf tops lops st i os ot (STrimming n) st'.
Proof. exact L_C70_delete_is_steps. Qed.
Print Assumptions C70_delete_is_steps.

(** Until the link itself is touched, and after the list of unused links has been updated,
    the reopened store shows the links before or after the deletion. *)
Theorem C70_interrupted_delete_partial :
  forall cf tops lops st d i os ot p st1 orc st2,
  let SL := split_links cf tops lops in
  unit_env cf tops lops -> s_hist cf tops lops st d -> is_link SL st i os ot -> s_okd SL st i ->
  all_fit cf tops lops st ->
  s_delete_at cf tops lops st i os ot p st1 -> s_open cf (s_persist st1 orc) = Val (Ok st2) ->
  match p with
  | Resolving (MidTarget _ x) => exists t, is_link SL st x 0 t
  | Resolving _ => True
  | Emptying k => k = 0%nat \/ k = 1%nat
  | SListed | STrimming _ => True
  | SDetaching _ => False
  end ->
  s_agreed cf st2 /\
  match p with
  | Resolving _ | Emptying _ => same_links SL st st2
  | _ => no_link SL st2 i /\ frame SL st st2 i
  end.
Proof. exact L_C70_interrupted_delete_partial. Qed.
Print Assumptions C70_interrupted_delete_partial.

(** Between the two halves of the move of a link that has the deleted link as its target,
    that other link is lost. *)
Theorem C70_user_lost :
  forall cf tops lops st d i os ot n x s t st1 orc st2,
  let SL := split_links cf tops lops in
  unit_env cf tops lops -> s_hist cf tops lops st d -> is_link SL st i os ot -> s_okd SL st i ->
  all_fit cf tops lops st -> is_link SL st x s t -> s <> 0 ->
  s_delete_at cf tops lops st i os ot (Resolving (MidTarget n x)) st1 -> s_open cf (s_persist st1 orc) = Val (Ok st2) ->
  t = i /\ x <> i /\ no_link SL st2 x /\ is_link SL st2 i os ot /\ frame SL st st2 x /\
  exists n, s_count cf st2 [] = Val (n + 1) /\ s_each cf (fun m _ => (m + 1, Continue)) [] st2 0 = Val (n, Continue).
Proof. exact L_C70_user_lost. Qed.
Print Assumptions C70_user_lost.

(** After the two detaches, before the fields are written, the link is gone but counted;
    after the first field it is shown as 0 -> its old target, after the second as 0 -> 0. *)
Theorem C70_half_deleted :
  forall cf tops lops st d i os ot k st1 orc st2,
  let SL := split_links cf tops lops in
  unit_env cf tops lops -> s_hist cf tops lops st d -> is_link SL st i os ot -> s_okd SL st i ->
  all_fit cf tops lops st -> (2 <= k)%nat ->
  s_delete_at cf tops lops st i os ot (Emptying k) st1 -> s_open cf (s_persist st1 orc) = Val (Ok st2) ->
  frame SL st st2 i /\
  match k with
  | 2%nat => (os = 0 -> is_link SL st2 i 0 ot /\ s_agreed cf st2) /\
      (os <> 0 -> no_link SL st2 i /\
         exists n, s_count cf st2 [] = Val (n + 1) /\ s_each cf (fun m _ => (m + 1, Continue)) [] st2 0 = Val (n, Continue))
  | 3%nat => is_link SL st2 i 0 ot /\ s_agreed cf st2
  | _ => is_link SL st2 i 0 0 /\ s_agreed cf st2
  end.
Proof. exact L_C70_half_deleted. Qed.
Print Assumptions C70_half_deleted.

(** In the middle of a round of the trim loop, a link deleted earlier is there again. *)
Theorem C70_deleted_link_returns :
  forall cf tops lops st d i os ot n st1 orc st2,
  let SL := split_links cf tops lops in
  unit_env cf tops lops -> s_hist cf tops lops st d -> is_link SL st i os ot -> s_okd SL st i ->
  all_fit cf tops lops st ->
  s_delete_at cf tops lops st i os ot (SDetaching n) st1 -> s_open cf (s_persist st1 orc) = Val (Ok st2) ->
  s_agreed cf st2 /\ no_link SL st2 i /\
  exists k, 1 <= k < i /\ no_link SL st k /\ is_link SL st2 k 0 0 /\
    forall j, j <> i -> j <> k -> li_get SL st2 j = li_get SL st j.
Proof. exact L_C70_deleted_link_returns. Qed.
Print Assumptions C70_deleted_link_returns.

Theorem C70_refuted :
  (exists st d st1 st2, s_hist ex_cf ref_tree_ops ref_list_ops st d /\ distinct_pairs ex_S st /\
     is_link ex_S st 1 1 1 /\ is_link ex_S st 3 2 1 /\
     s_delete_at ex_cf ref_tree_ops ref_list_ops st 1 1 1 (Resolving (MidTarget 0 3)) st1 /\
     s_open ex_cf (s_persist st1 all_grown) = Val (Ok st2) /\ is_link ex_S st2 1 1 1 /\ no_link ex_S st2 3 /\ s_count ex_cf st2 [] = Val 3) /\
  (exists st d, s_hist ex_cf ref_tree_ops ref_list_ops st d /\ distinct_pairs ex_S st /\
     is_link ex_S st 3 2 1 /\ no_link ex_S st 2 /\
     (exists st1 st2, s_delete_at ex_cf ref_tree_ops ref_list_ops st 3 2 1 (Emptying 2) st1 /\
        s_open ex_cf (s_persist st1 all_grown) = Val (Ok st2) /\ no_link ex_S st2 3 /\ s_count ex_cf st2 [] = Val 2) /\
     (exists st1 st2, s_delete_at ex_cf ref_tree_ops ref_list_ops st 3 2 1 (Emptying 3) st1 /\
        s_open ex_cf (s_persist st1 all_grown) = Val (Ok st2) /\ is_link ex_S st2 3 0 1) /\
     (exists st1 st2, s_delete_at ex_cf ref_tree_ops ref_list_ops st 3 2 1 (SDetaching 0) st1 /\
        s_open ex_cf (s_persist st1 all_grown) = Val (Ok st2) /\ no_link ex_S st2 3 /\ is_link ex_S st2 2 0 0)).
Proof. exact L_C70_refuted. Qed.
Print Assumptions C70_refuted.

Theorem C70_nonvacuous :
  (exists st d st1 st2, s_hist ex_cf ref_tree_ops ref_list_ops st d /\ linked ex_S st 6 /\
     sh_reserved st - 1 <= sh_alloc st /\ sh_first st = 0 /\
     s_alloc_mem st (s_dcap st + c_step ex_cf) (s_ilen st + c_step ex_cf) = (st1, true) /\
     s_create_point ex_cf ref_tree_ops ref_list_ops st st1 /\ s_okc ex_S st st1 /\
     (forall j, linked ex_S st j -> j + 1 < c_page ex_cf \/ j + 1 < c_step ex_cf) /\ 1 < c_step ex_cf /\ s_open ex_cf (s_persist st1 all_grown) = Val (Ok st2)) /\
  (exists st d st1 st2, s_hist ex_cf ref_tree_ops ref_list_ops st d /\ s_okd ex_S st 1 /\ all_fit ex_cf ref_tree_ops ref_list_ops st /\
     is_link ex_S st 1 1 1 /\ is_link ex_S st 2 1 2 /\
     s_delete_at ex_cf ref_tree_ops ref_list_ops st 1 1 1 (Resolving (MidSource 0 2)) st1 /\
     s_open ex_cf (s_persist st1 all_grown) = Val (Ok st2)) /\
  (exists st d, s_hist ex_cf ref_tree_ops ref_list_ops st d /\ s_okd ex_S st 1 /\ s_okd ex_S st 3 /\ all_fit ex_cf ref_tree_ops ref_list_ops st /\
     is_link ex_S st 1 1 1 /\ is_link ex_S st 3 2 1 /\
     (exists st1 st2, s_delete_at ex_cf ref_tree_ops ref_list_ops st 1 1 1 SListed st1 /\ s_open ex_cf (s_persist st1 all_grown) = Val (Ok st2)) /\
     (exists st1 st2, s_delete_at ex_cf ref_tree_ops ref_list_ops st 3 2 1 (STrimming 1) st1 /\ s_open ex_cf (s_persist st1 all_grown) = Val (Ok st2)) /\
     (forall k, (k < 7)%nat -> exists st1 st2, s_delete_at ex_cf ref_tree_ops ref_list_ops st 3 2 1 (Emptying k) st1 /\
        s_open ex_cf (s_persist st1 all_grown) = Val (Ok st2))).
Proof. exact L_C70_nonvacuous. Qed.
Print Assumptions C70_nonvacuous.
