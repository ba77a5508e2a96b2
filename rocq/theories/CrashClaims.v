(** Proofs of the claims about an interrupted update (C44) and an interrupted creation or
    deletion (C60). *)
From Coq Require Import NArith List Bool Lia.
From Verif Require Import Base Trees Lists TreeInv Spec Iface UnitModel UnitInv UnitOps UnitLinks
  Doublets DoubletsOK Obs Hist Claims TreeImpl UnitHist Crash CrashWrites.
Import ListNotations.
Open Scope N_scope.

(** Where the process stopped. *)
Inductive point := After (k : nat) | BetweenFields.
Definition at_point (tops : tree_ops) (st : ust) (i os ot s t : N) (p : point) (st' : ust) : Prop :=
  match p with After k => stopped tops st i os ot s t k st' | BetweenFields => half_written tops st i os ot s t st' end.
(** The points at which the link has a source but is in no tree of sources. *)
Definition detached_point (p : point) (os s : N) : Prop :=
  match p with
  | After 1 | After 2 => os <> 0
  | After 3 | BetweenFields => s <> 0
  | After _ => False
  end.
Definition stored (p : point) (os ot s t : N) : N * N :=
  match p with After 0 | After 1 | After 2 => (os, ot) | BetweenFields => (s, ot) | After _ => (s, t) end.

Section P.
  Variables (cf : cfg) (tops : tree_ops) (lops : list_ops).
  Hypothesis ENV : unit_env cf tops lops.
  Notation U := (unit_links cf tops lops).

  Lemma point_crep st a i os ot s t p st' : uinv cf st a -> a_map a i = Some (os, ot) -> detachable a i ->
    at_point tops st i os ot s t p st' ->
    exists b, crep st' a i (stored p os ot s t) b /\ (visible (stored p os ot s t) b = false <-> detached_point p os s).
  Proof.
    intros K M D E. destruct p as [k|]; cbn [at_point] in E.
    - exists (in_tree k os s). split.
      + pose proof (stopped_crep cf tops lops ENV _ _ _ _ _ _ _ _ _ K M D E) as C.
        do 4 (destruct k as [|k]; [exact C|]). exact C.
      + do 4 (destruct k as [|k]; [unfold visible; cbn [stored in_tree detached_point fst];
          rewrite ?orb_false_r, ?N.eqb_neq; try tauto; destruct (os =? 0); cbn; (split; [discriminate|tauto])|]).
        unfold visible; cbn [stored in_tree detached_point fst]. destruct (s =? 0); cbn; (split; [discriminate|tauto]).
    - exists false. split; [exact (half_crep cf tops lops ENV _ _ _ _ _ _ _ _ K M D E)|].
      unfold visible; cbn [stored detached_point fst]. rewrite orb_false_r, N.eqb_neq. tauto.
  Qed.
  Lemma point_exists st a i os ot s t p : uinv cf st a -> a_map a i = Some (os, ot) -> detachable a i ->
    exists st', at_point tops st i os ot s t p st'.
  Proof.
    intros K M D. destruct p as [k|]; [exact (stopped_exists cf tops lops ENV _ _ _ _ _ _ _ k K M D)|].
    destruct (stopped_exists cf tops lops ENV _ _ _ _ _ s t 2 K M D) as [st2 E]. eexists. exists st2. eauto.
  Qed.
  Lemma top_lt st a : uinv cf st a -> (forall j, linked U st j -> j < c_step cf) -> a_top a < c_step cf.
  Proof.
    intros K LT. pose proof (e_ok _ _ _ ENV) as OK. pose proof (e_cf _ _ _ ENV) as CF.
    destruct (wf_top _ (lo_wf _ _ _ _ OK _ _ K)) as [T|T]; [pose proof (ok_step _ CF); lia|].
    apply LT. now apply (ob_linked cf _ U _ OK _ _ _ K).
  Qed.
End P.

(** * C44 *)
Lemma L_C44_update_is_steps cf tops lops st i os ot s t H (h : whandler H) x :
  is_link (unit_links cf tops lops) st i os ot ->
  u_update cf tops h [i] [i; s; t] st x =
    (let* st' := run_steps (update_steps tops i os ot s t) st in
     let (x', f) := h x (mkLink i s t) (mkLink i s t) in Val (st', x', Ok f)).
Proof.
  intros L. unfold is_link in L. cbn [li_get unit_links] in L. unfold u_update. change (qget [i] 0) with (Val i). change (qget [i; s; t] 1) with (Val s). change (qget [i; s; t] 2) with (Val t).
  cbn [obind]. rewrite update_steps_relink.
  rewrite L. reflexivity.
Qed.
Lemma L_C44_points_exist cf tops lops st d i os ot s t p orc :
  let U := unit_links cf tops lops in
  unit_env cf tops lops -> u_hist cf tops lops st d -> is_link U st i os ot -> separable U st i ->
  (forall j, linked U st j -> j < c_step cf) -> c_step cf - 1 <= c_tmax cf ->
  orc 0%nat (c_page cf) = true -> orc 1%nat (c_step cf) = true ->
  exists st1 st2, at_point tops st i os ot s t p st1 /\ u_open cf (u_persist st1 orc) = Val (Ok st2).
Proof.
  intros U ENV HH L S LT TM O1 O2. destruct (u_hist_inv cf tops lops ENV st d HH) as (a & K & D).
  pose proof (e_ok _ _ _ ENV) as OK.
  apply (ob_link cf _ U _ OK _ _ _ _ _ K) in L. apply (ob_sep cf _ U _ OK _ _ _ K) in S.
  destruct (point_exists cf tops lops ENV st a i os ot s t p K L S) as [st1 E].
  destruct (point_crep cf tops lops ENV st a i os ot s t p st1 K L S E) as (b & C & _).
  destruct (crep_reopens cf tops lops ENV _ _ _ _ _ orc C) as [st2 E2]; auto; [eapply top_lt; eauto|].
  exists st1, st2. auto.
Qed.
(** At these points every link is still there and count and each agree. *)
Lemma L_C44_interrupted_update_partial cf tops lops st d i os ot s t p st1 orc st2 :
  let U := unit_links cf tops lops in
  unit_env cf tops lops -> u_hist cf tops lops st d -> is_link U st i os ot -> separable U st i ->
  (forall j, linked U st j -> j < c_step cf) ->
  at_point tops st i os ot s t p st1 -> u_open cf (u_persist st1 orc) = Val (Ok st2) ->
  ~ detached_point p os s ->
  frame U st st2 i /\ is_link U st2 i (fst (stored p os ot s t)) (snd (stored p os ot s t)) /\
  exists n, u_count cf st [] = Val n /\ u_count cf st2 [] = Val n /\
    u_each cf (fun m _ => (m + 1, Continue)) [] st2 0 = Val (n, Continue).
Proof.
  intros U ENV HH L S LT E1 E2 ND. destruct (u_hist_inv cf tops lops ENV st d HH) as (a & K & D).
  pose proof (e_ok _ _ _ ENV) as OK.
  apply (ob_link cf _ U _ OK _ _ _ _ _ K) in L. apply (ob_sep cf _ U _ OK _ _ _ K) in S.
  assert (W : awf a) by (eapply lo_wf; eauto). assert (MN : a_map a i <> None) by congruence.
  destruct (point_crep cf tops lops ENV st a i os ot s t p st1 K L S E1) as (b & C & V).
  pose proof (top_lt cf tops lops ENV _ _ K LT) as TL.
  pose proof (crep_open cf tops lops ENV _ _ _ _ _ _ _ W MN C TL E2) as C2.
  assert (VT : visible (stored p os ot s t) b = true) by (destruct (visible _ b); auto; exfalso; apply ND; now apply V).
  split; [|split].
  - intros j J. transitivity (Val (olink j (a_map (a_seen a i (stored p os ot s t) b) j))).
    + now apply (crep_get cf tops lops ENV).
    + cbn [a_seen a_map]. rewrite upd_other by auto. symmetry. exact (lo_get _ _ _ _ OK _ _ j K).
  - unfold is_link. etransitivity; [apply (crep_get cf tops lops ENV _ _ _ _ _ i W MN C2)|].
    cbn [a_seen a_map]. rewrite VT, upd_same. destruct (stored p os ot s t). reflexivity.
  - exists (N.of_nat (length (alinks a))). split; [|split].
    + eapply crep_count; [exact W|]. eapply urep_crep; eauto.
    + eapply crep_count; [exact W|exact C2].
    + rewrite (crep_each cf tops lops ENV _ _ _ _ _ _ _ _ W MN C2).
      pose proof (run_count_visits (alinks (a_seen a i (stored p os ot s t) b)) 0) as RC. unfold count_visits in RC.
      rewrite RC. rewrite (seen_length a i (stored p os ot s t) b W MN), VT. do 2 f_equal. lia.
Qed.
(** At the other points the link is lost: it is not visited and cannot be read, and count
    still counts it. *)
Lemma L_C44_link_lost cf tops lops st d i os ot s t p st1 orc st2 :
  let U := unit_links cf tops lops in
  unit_env cf tops lops -> u_hist cf tops lops st d -> is_link U st i os ot -> separable U st i ->
  (forall j, linked U st j -> j < c_step cf) ->
  at_point tops st i os ot s t p st1 -> u_open cf (u_persist st1 orc) = Val (Ok st2) ->
  detached_point p os s ->
  frame U st st2 i /\ no_link U st2 i /\
  exists n, u_count cf st [] = Val (n + 1) /\ u_count cf st2 [] = Val (n + 1) /\
    u_each cf (fun m _ => (m + 1, Continue)) [] st2 0 = Val (n, Continue).
Proof.
  intros U ENV HH L S LT E1 E2 DP. destruct (u_hist_inv cf tops lops ENV st d HH) as (a & K & D).
  pose proof (e_ok _ _ _ ENV) as OK.
  apply (ob_link cf _ U _ OK _ _ _ _ _ K) in L. apply (ob_sep cf _ U _ OK _ _ _ K) in S.
  assert (W : awf a) by (eapply lo_wf; eauto). assert (MN : a_map a i <> None) by congruence.
  destruct (point_crep cf tops lops ENV st a i os ot s t p st1 K L S E1) as (b & C & V).
  pose proof (top_lt cf tops lops ENV _ _ K LT) as TL.
  pose proof (crep_open cf tops lops ENV _ _ _ _ _ _ _ W MN C TL E2) as C2.
  assert (VF : visible (stored p os ot s t) b = false) by now apply V.
  split; [|split].
  - intros j J. transitivity (Val (olink j (a_map (a_seen a i (stored p os ot s t) b) j))).
    + now apply (crep_get cf tops lops ENV).
    + cbn [a_seen a_map]. rewrite upd_other by auto. symmetry. exact (lo_get _ _ _ _ OK _ _ j K).
  - unfold no_link. etransitivity; [apply (crep_get cf tops lops ENV _ _ _ _ _ i W MN C2)|].
    cbn [a_seen a_map]. rewrite VF, upd_same. reflexivity.
  - pose proof (seen_length a i (stored p os ot s t) b W MN) as SL. rewrite VF in SL.
    set (n := N.of_nat (length (alinks (a_seen a i (stored p os ot s t) b)))).
    assert (EN : N.of_nat (length (alinks a)) = n + 1) by (unfold n; lia).
    exists n. rewrite <- EN. split; [|split].
    + eapply crep_count; [exact W|]. eapply urep_crep; eauto.
    + eapply crep_count; [exact W|exact C2].
    + rewrite (crep_each cf tops lops ENV _ _ _ _ _ _ _ _ W MN C2).
      pose proof (run_count_visits (alinks (a_seen a i (stored p os ot s t) b)) 0) as RC. unfold count_visits in RC.
      rewrite RC. reflexivity.
Qed.
(** The full statement fails: three links, link 2 = 1 -> 2 is moved to 2 -> 2, and the
    process stops after the first detach. *)
Lemma L_C44_refuted : exists st d st1 st2,
  u_hist ex_cf ref_tree_ops ref_list_ops st d /\ is_link ex_U st 2 1 2 /\ separable ex_U st 2 /\
  at_point ref_tree_ops st 2 1 2 2 2 (After 1) st1 /\
  u_open ex_cf (u_persist st1 (fun _ _ => true)) = Val (Ok st2) /\
  u_count ex_cf st2 [] = Val 3 /\ u_each ex_cf (fun m _ => (m + 1, Continue)) [] st2 0 = Val (2, Continue).
Proof.
  destruct ex3_reach as (d & HH & DP & _ & L2 & _).
  exists (ex_st ex3), d.
  exists (match run_steps (firstn 1 (update_steps ref_tree_ops 2 1 2 2 2)) (ex_st ex3) with Val s => s | _ => ex_start end).
  exists (match u_open ex_cf (u_persist (match run_steps (firstn 1 (update_steps ref_tree_ops 2 1 2 2 2)) (ex_st ex3) with Val s => s | _ => ex_start end) (fun _ _ => true)) with Val (Ok s) => s | _ => ex_start end).
  split; [exact HH|]. split; [exact L2|]. split; [apply distinct_separable; exact DP|].
  split; [unfold at_point, stopped; vm_compute; reflexivity|].
  repeat (split; [vm_compute; reflexivity|]). vm_compute; reflexivity.
Qed.
(** The hypotheses above are met, at both kinds of points. *)
Lemma L_C44_nonvacuous : exists st d, u_hist ex_cf ref_tree_ops ref_list_ops st d /\
  is_link ex_U st 2 1 2 /\ is_link ex_U st 3 2 1 /\ separable ex_U st 2 /\ (forall j, linked ex_U st j -> j < c_step ex_cf) /\
  c_step ex_cf - 1 <= c_tmax ex_cf /\ ~ detached_point (After 4) 1 2 /\ detached_point BetweenFields 1 2 /\
  exists st1, at_point ref_tree_ops st 2 1 2 2 2 BetweenFields st1.
Proof.
  destruct ex3_reach as (d0 & _ & DP & _ & L2 & L3).
  destruct (ex_reach ex3) as (d & HH & K); [vm_compute; reflexivity..|]. pose proof (e_ok _ _ _ ex_env) as OK.
  exists (ex_st ex3), d. split; [exact HH|]. split; [exact L2|]. split; [exact L3|]. split; [apply distinct_separable; exact DP|].
  split. { intros i LI. apply (ob_top ex_cf _ _ _ OK _ _ K) in LI. vm_compute (a_top _) in LI. cbn. lia. }
  split; [cbn; lia|]. split; [cbn; tauto|]. split; [cbn; lia|].
  apply (point_exists ex_cf ref_tree_ops ref_list_ops ex_env _ _ _ _ _ _ _ BetweenFields K).
  - now apply (ob_link ex_cf _ _ _ OK _ _ _ _ _ K).
  - apply (ob_sep ex_cf _ _ _ OK _ _ _ K). apply distinct_separable; exact DP.
Qed.

(** * C60 *)
Lemma L_C60_interrupted_create cf tops lops st d st1 orc st2 :
  let U := unit_links cf tops lops in
  unit_env cf tops lops -> u_hist cf tops lops st d ->
  (forall j, linked U st j -> j + 1 < c_step cf) -> 1 < c_step cf ->
  create_point cf lops st st1 -> u_open cf (u_persist st1 orc) = Val (Ok st2) ->
  agreed cf st2 /\
  (same_links U st st2 \/
   exists i, 1 <= i /\ no_link U st i /\ is_link U st2 i 0 0 /\ frame U st st2 i).
Proof.
  intros U ENV HH LT S1 CP E. destruct (u_hist_inv cf tops lops ENV st d HH) as (a & K & D).
  pose proof (e_ok _ _ _ ENV) as OK. pose proof (e_cf _ _ _ ENV) as CF.
  assert (W : awf a) by (eapply lo_wf; eauto).
  assert (TL : a_top a + 1 < c_step cf).
  { destruct (wf_top _ W) as [T|T]; [rewrite T; lia|]. apply LT. now apply (ob_linked cf _ U _ OK _ _ _ K). }
  assert (SAME : same_cells st1 st -> agreed cf st2 /\ same_links U st st2).
  { intros SC. pose proof (reopen_urep cf tops lops ENV st1 st a orc st2 SC (proj1 K) ltac:(lia) E) as R2.
    split; [eapply urep_agreed; eauto|]. intros j.
    transitivity (Val (olink j (a_map a j))); [eapply u_get_link_ok; eauto|]. symmetry. exact (lo_get _ _ _ _ OK _ _ j K). }
  destruct CP as [|st1 EA|st1 r EG|H h q x st1 x1 r EC].
  - destruct (SAME (same_cells_refl st)). auto.
  - assert (SC : same_cells st1 st).
    { unfold u_alloc_mem in EA. destruct (u_orc st 0%nat _); [|discriminate]. injection EA as <-. repeat split; auto. }
    destruct (SAME SC). auto.
  - destruct (SAME (grow_cells cf _ _ _ EG)). auto.
  - destruct (u_create_ok cf CF lops (proj2 (proj2 ENV)) st a q K) as [(_ & _ & _ & _ & _ & _ & F)|[[_ F]|[(_ & _ & _ & K1 & F)|(_ & st' & K1 & F)]]].
    + rewrite F in EC. discriminate.
    + rewrite F in EC. injection EC as <- _ _. destruct (SAME (same_cells_refl st)). auto.
    + rewrite F in EC. injection EC as <- _ _. destruct SAME; [repeat split; auto|auto].
    + rewrite F in EC. injection EC as <- _ _.
      assert (TC : a_top (a_create a) < c_step cf) by (unfold a_create; destruct (a_free a); cbn [a_top]; lia).
      pose proof (reopen_urep cf tops lops ENV st' st' _ orc st2 (same_cells_refl st') (proj1 K1) TC E) as R2.
      split; [eapply urep_agreed; eauto|]. right. exists (a_next a).
      assert (NI : 1 <= a_next a /\ a_map a (a_next a) = None).
      { unfold a_next. destruct (a_free a) as [|y l] eqn:EF; [split; [lia|apply awf_none; auto; left; lia]|].
        assert (IF : In y (a_free a)) by (rewrite EF; now left). pose proof (wf_free _ W _ IF). split; [lia|].
        apply awf_none; auto. }
      assert (MC : forall j, a_map (a_create a) j = if j =? a_next a then Some (0, 0) else a_map a j).
      { intros j. unfold a_create, a_next. destruct (a_free a); reflexivity. }
      split; [apply NI|]. split; [|split].
      * apply (ob_none cf _ U _ OK _ _ _ K). apply NI.
      * unfold is_link. etransitivity; [eapply u_get_link_ok; eauto|]. rewrite MC, N.eqb_refl. reflexivity.
      * intros j J. etransitivity; [eapply u_get_link_ok; eauto|]. rewrite MC. destruct (N.eqb_spec j (a_next a)); [contradiction|].
        symmetry. exact (lo_get _ _ _ _ OK _ _ j K).
Qed.
Lemma L_C60_delete_is_steps cf tops lops st i os ot H (h : whandler H) x st' x' f :
  is_link (unit_links cf tops lops) st i os ot ->
  u_delete cf tops lops h [i] st x = Val (st', x', Ok f) ->
  delete_at tops lops st i os ot Listed st' \/ exists n, delete_at tops lops st i os ot (Trimming n) st'.
Proof.
  intros L E. unfold is_link in L. cbn [li_get unit_links] in L. unfold u_delete in E.
  change (qget [i] 0) with (Val i) in E. cbn [obind] in E. rewrite L in E. cbn [obind] in E.
  unfold u_update in E. change (qget [i] 0) with (Val i) in E. change (qget [i; 0; 0] 1) with (Val 0) in E. change (qget [i; 0; 0] 2) with (Val 0) in E.
  cbn [obind] in E. rewrite L in E. cbn [obind l_source l_target] in E.
  destruct (u_relink tops st i os ot 0 0) as [st0| | |] eqn:E0; try discriminate. cbn [obind] in E.
  destruct (u_header st0); try discriminate. cbn [obind] in E.
  destruct (N.compare_spec i (h_alloc st0)) as [C|C|C]; [| |discriminate].
  - destruct (csub (h_alloc st0) 1) as [a1| | |] eqn:EC; try discriminate. cbn [obind] in E.
    assert (EA : a1 = h_alloc st0 - 1) by (unfold csub in EC; destruct (1 <=? h_alloc st0); [injection EC as <-; reflexivity|discriminate]).
    subst a1. destruct (u_trim lops _ _) as [st3| | |] eqn:ET; try discriminate. cbn [obind] in E.
    destruct (h x (mkLink i os ot) nothing). injection E as <- _ _.
    destruct (trim_trimmed lops _ _ _ ET) as [n T]. right. exists n, st0. auto.
  - destruct (u_unused_attach lops st0 i) as [st3| | |] eqn:ET; try discriminate. cbn [obind] in E.
    destruct (h x (mkLink i os ot) nothing). injection E as <- _ _. left. exists st0. auto.
Qed.
(** At these points the reopened store shows the links after the deletion. *)
Lemma L_C60_interrupted_delete_partial cf tops lops st d i os ot p st1 orc st2 :
  let U := unit_links cf tops lops in
  unit_env cf tops lops -> u_hist cf tops lops st d -> is_link U st i os ot -> separable U st i ->
  (forall j, linked U st j -> j < c_step cf) ->
  delete_at tops lops st i os ot p st1 -> u_open cf (u_persist st1 orc) = Val (Ok st2) ->
  p = Listed \/ (exists n, p = Trimming n) ->
  agreed cf st2 /\ no_link U st2 i /\ frame U st st2 i.
Proof.
  intros U ENV HH L S LT E1 E2 P. destruct (u_hist_inv cf tops lops ENV st d HH) as (a & K & D).
  pose proof (e_ok _ _ _ ENV) as OK. pose proof (e_cf _ _ _ ENV) as CF.
  apply (ob_link cf _ U _ OK _ _ _ _ _ K) in L. apply (ob_sep cf _ U _ OK _ _ _ K) in S.
  pose proof (top_lt cf tops lops ENV _ _ K LT) as TL.
  destruct (delete_at_urep cf tops lops ENV st a i os ot p st1 K L S E1) as (a1 & R1 & LE & V).
  assert (V' : a_map a1 i = None /\ forall j, j <> i -> a_map a1 j = a_map a j) by (destruct P as [->|[n ->]]; exact V).
  destruct V' as [MI MJ].
  pose proof (reopen_urep cf tops lops ENV st1 st1 a1 orc st2 (same_cells_refl st1) R1 ltac:(lia) E2) as R2.
  split; [eapply urep_agreed; eauto|]. split.
  - unfold no_link. etransitivity; [eapply u_get_link_ok; eauto|]. now rewrite MI.
  - intros j J. etransitivity; [eapply u_get_link_ok; eauto|]. rewrite MJ by auto. symmetry. exact (lo_get _ _ _ _ OK _ _ j K).
Qed.
(** Before the list of unused links is touched, the link is still there, emptied. *)
Lemma L_C60_half_deleted cf tops lops st d i os ot st1 orc st2 :
  let U := unit_links cf tops lops in
  unit_env cf tops lops -> u_hist cf tops lops st d -> is_link U st i os ot -> separable U st i ->
  (forall j, linked U st j -> j < c_step cf) ->
  delete_at tops lops st i os ot Zeroed st1 -> u_open cf (u_persist st1 orc) = Val (Ok st2) ->
  agreed cf st2 /\ is_link U st2 i 0 0 /\ frame U st st2 i.
Proof.
  intros U ENV HH L S LT E1 E2. destruct (u_hist_inv cf tops lops ENV st d HH) as (a & K & D).
  pose proof (e_ok _ _ _ ENV) as OK. pose proof (e_cf _ _ _ ENV) as CF.
  apply (ob_link cf _ U _ OK _ _ _ _ _ K) in L. apply (ob_sep cf _ U _ OK _ _ _ K) in S.
  pose proof (top_lt cf tops lops ENV _ _ K LT) as TL.
  destruct (delete_at_urep cf tops lops ENV st a i os ot Zeroed st1 K L S E1) as (a1 & R1 & LE & MI & MJ).
  pose proof (reopen_urep cf tops lops ENV st1 st1 a1 orc st2 (same_cells_refl st1) R1 ltac:(lia) E2) as R2.
  split; [eapply urep_agreed; eauto|]. split.
  - unfold is_link. etransitivity; [eapply u_get_link_ok; eauto|]. now rewrite MI.
  - intros j J. etransitivity; [eapply u_get_link_ok; eauto|]. rewrite MJ by auto. symmetry. exact (lo_get _ _ _ _ OK _ _ j K).
Qed.
(** In the middle of a round of the trim loop, a link deleted earlier is there again. *)
Lemma L_C60_deleted_link_returns cf tops lops st d i os ot n st1 orc st2 :
  let U := unit_links cf tops lops in
  unit_env cf tops lops -> u_hist cf tops lops st d -> is_link U st i os ot -> separable U st i ->
  (forall j, linked U st j -> j < c_step cf) ->
  delete_at tops lops st i os ot (Detaching n) st1 -> u_open cf (u_persist st1 orc) = Val (Ok st2) ->
  agreed cf st2 /\ no_link U st2 i /\
  exists k, 1 <= k < i /\ no_link U st k /\ is_link U st2 k 0 0 /\
    forall j, j <> i -> j <> k -> li_get U st2 j = li_get U st j.
Proof.
  intros U ENV HH L S LT E1 E2. destruct (u_hist_inv cf tops lops ENV st d HH) as (a & K & D).
  pose proof (e_ok _ _ _ ENV) as OK. pose proof (e_cf _ _ _ ENV) as CF.
  apply (ob_link cf _ U _ OK _ _ _ _ _ K) in L. apply (ob_sep cf _ U _ OK _ _ _ K) in S.
  pose proof (top_lt cf tops lops ENV _ _ K LT) as TL.
  destruct (delete_at_urep cf tops lops ENV st a i os ot (Detaching n) st1 K L S E1) as (a1 & R1 & LE & k & KR & MK & MK1 & MI & MJ).
  pose proof (reopen_urep cf tops lops ENV st1 st1 a1 orc st2 (same_cells_refl st1) R1 ltac:(lia) E2) as R2.
  split; [eapply urep_agreed; eauto|]. split; [unfold no_link; etransitivity; [eapply u_get_link_ok; eauto|]; now rewrite MI|].
  exists k. split; [exact KR|]. split; [now apply (ob_none cf _ U _ OK _ _ _ K)|]. split.
  - unfold is_link. etransitivity; [eapply u_get_link_ok; eauto|]. now rewrite MK1.
  - intros j J1 J2. etransitivity; [eapply u_get_link_ok; eauto|]. rewrite MJ by auto. symmetry. exact (lo_get _ _ _ _ OK _ _ j K).
Qed.
(** The full statement fails of deletions: links 1 and 3, link 2 deleted before, link 3 is
    being deleted.  Right after the update the store shows 3 = 0 -> 0; in the first round of
    the loop it shows link 2 again. *)
Definition ex_del : list cmd := ex3 ++ [De 2].
Definition ex_zeroed : ust := match u_relink ref_tree_ops (ex_st ex_del) 3 2 1 0 0 with Val s => s | _ => ex_start end.
Definition ex_lowered : ust := set_alloc ex_zeroed (h_alloc ex_zeroed - 1).
Definition ex_detaching : ust := match u_unused_detach ref_list_ops ex_lowered 2 with Val s => s | _ => ex_start end.
Definition ex_opened (st : ust) : ust := match u_open ex_cf (u_persist st (fun _ _ => true)) with Val (Ok s) => s | _ => ex_start end.
Lemma L_C60_refuted : exists st d,
  u_hist ex_cf ref_tree_ops ref_list_ops st d /\ is_link ex_U st 3 2 1 /\ no_link ex_U st 2 /\ separable ex_U st 3 /\
  (exists st1 st2, delete_at ref_tree_ops ref_list_ops st 3 2 1 Zeroed st1 /\
     u_open ex_cf (u_persist st1 (fun _ _ => true)) = Val (Ok st2) /\ is_link ex_U st2 3 0 0) /\
  (exists st1 st2, delete_at ref_tree_ops ref_list_ops st 3 2 1 (Detaching 0) st1 /\
     u_open ex_cf (u_persist st1 (fun _ _ => true)) = Val (Ok st2) /\ no_link ex_U st2 3 /\ is_link ex_U st2 2 0 0).
Proof.
  destruct (ex_reach ex_del) as (d & HH & K); [vm_compute; reflexivity..|].
  assert (DP : distinct_pairs ex_U (ex_st ex_del)) by (apply ex_distinct; vm_compute; reflexivity).
  assert (Z : u_relink ref_tree_ops (ex_st ex_del) 3 2 1 0 0 = Val ex_zeroed) by (vm_compute; reflexivity).
  exists (ex_st ex_del), d. split; [exact HH|]. split; [unfold is_link; vm_compute; reflexivity|].
  split; [unfold no_link; vm_compute; reflexivity|]. split; [apply distinct_separable; exact DP|]. split.
  - exists ex_zeroed, (ex_opened ex_zeroed). split; [exists ex_zeroed; auto|].
    split; [vm_compute; reflexivity|unfold is_link; vm_compute; reflexivity].
  - exists ex_detaching, (ex_opened ex_detaching). split.
    + exists ex_zeroed. split; [exact Z|]. split; [vm_compute; reflexivity|]. exists ex_lowered.
      split; [reflexivity|]. split; [vm_compute; reflexivity|]. split; vm_compute; reflexivity.
    + split; [vm_compute; reflexivity|]. split; [unfold no_link|unfold is_link]; vm_compute; reflexivity.
Qed.
(** The hypotheses above are met: a creation that has to grow the memory, and a deletion
    stopped at each kind of point. *)
Definition ex_full : list cmd := [Cr; Cr; Cr; Cr; Cr; Cr].
Lemma L_C60_nonvacuous :
  (exists st d st1, u_hist ex_cf ref_tree_ops ref_list_ops st d /\ linked ex_U st 6 /\
     (forall j, linked ex_U st j -> j + 1 < c_step ex_cf) /\ h_reserved st - 1 <= h_alloc st /\
     u_alloc_mem st (u_len st + c_step ex_cf) = Some st1 /\
     create_point ex_cf ref_list_ops st st1) /\
  exists st d, u_hist ex_cf ref_tree_ops ref_list_ops st d /\ is_link ex_U st 1 1 1 /\ is_link ex_U st 3 2 1 /\
    separable ex_U st 1 /\ separable ex_U st 3 /\ (forall j, linked ex_U st j -> j < c_step ex_cf) /\
    (exists st1 st2, delete_at ref_tree_ops ref_list_ops st 1 1 1 Listed st1 /\ u_open ex_cf (u_persist st1 (fun _ _ => true)) = Val (Ok st2)) /\
    (exists st1 st2, delete_at ref_tree_ops ref_list_ops st 3 2 1 (Trimming 0) st1 /\ u_open ex_cf (u_persist st1 (fun _ _ => true)) = Val (Ok st2)) /\
    (exists st1 st2, delete_at ref_tree_ops ref_list_ops st 3 2 1 (Trimming 1) st1 /\ u_open ex_cf (u_persist st1 (fun _ _ => true)) = Val (Ok st2)).
Proof.
  split.
  - destruct (ex_reach ex_full) as (d & HH & K); [vm_compute; reflexivity..|]. pose proof (e_ok _ _ _ ex_env) as OK.
    exists (ex_st ex_full), d. destruct (u_alloc_mem (ex_st ex_full) (u_len (ex_st ex_full) + c_step ex_cf)) as [st1|] eqn:EA; [|vm_compute in EA; discriminate].
    exists st1. split; [exact HH|]. split; [exists 0, 0; unfold is_link; vm_compute; reflexivity|].
    split. { intros i LI. apply (ob_top ex_cf _ _ _ OK _ _ K) in LI. vm_compute (a_top _) in LI. cbn. lia. }
    split; [vm_compute; discriminate|]. split; [reflexivity|]. now apply CP_grown.
  - destruct (ex_reach ex_del) as (d & HH & K); [vm_compute; reflexivity..|]. pose proof (e_ok _ _ _ ex_env) as OK.
    assert (DP : distinct_pairs ex_U (ex_st ex_del)) by (apply ex_distinct; vm_compute; reflexivity).
    exists (ex_st ex_del), d. split; [exact HH|]. split; [unfold is_link; vm_compute; reflexivity|].
    split; [unfold is_link; vm_compute; reflexivity|]. split; [apply distinct_separable; exact DP|]. split; [apply distinct_separable; exact DP|].
    split. { intros i LI. apply (ob_top ex_cf _ _ _ OK _ _ K) in LI. vm_compute (a_top _) in LI. cbn. lia. }
    assert (Z : u_relink ref_tree_ops (ex_st ex_del) 3 2 1 0 0 = Val ex_zeroed) by (vm_compute; reflexivity).
    split; [|split].
    + set (z := match u_relink ref_tree_ops (ex_st ex_del) 1 1 1 0 0 with Val s => s | _ => ex_start end).
      set (l := match u_unused_attach ref_list_ops z 1 with Val s => s | _ => ex_start end).
      exists l, (ex_opened l). split; [|vm_compute; reflexivity]. exists z. split; [vm_compute; reflexivity|].
      split; vm_compute; reflexivity.
    + exists ex_lowered, (ex_opened ex_lowered). split; [|vm_compute; reflexivity].
      exists ex_zeroed. split; [exact Z|]. split; [vm_compute; reflexivity|reflexivity].
    + set (t := set_alloc ex_detaching 1). exists t, (ex_opened t). split; [|vm_compute; reflexivity].
      exists ex_zeroed. split; [exact Z|]. split; [vm_compute; reflexivity|].
      cbn [trimmed]. split; [vm_compute; reflexivity|]. split; [vm_compute; reflexivity|].
      exists ex_detaching. split; vm_compute; reflexivity.
Qed.
