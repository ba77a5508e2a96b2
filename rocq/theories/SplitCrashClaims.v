(** Proofs of the claims about operations of the two-memory store that are interrupted:
    updates (C69), creations and deletions (C70). *)
From Coq Require Import NArith List Bool Lia Permutation.
From Verif Require Import Base Trees Lists Spec Iface UnitModel UnitInv UnitOps LinkModel SplitModel Forest
  SplitInv SplitReads SplitOps SplitWrites SplitLinks Doublets DoubletsOK Obs Hist Claims UnitHist TreeImpl SplitHist SplitCrash.
Import ListNotations.
Open Scope N_scope.

(** The memories can be opened again: the last link is no multiple of the step, or lies
    inside the first page or step (see C04). *)
Definition last_fits (cf : cfg) (tops : tree_ops) (lops : list_ops) (st : sst) : Prop :=
  forall i, linked (split_links cf tops lops) st i -> (forall j, linked (split_links cf tops lops) st j -> j <= i) ->
    i < c_page cf \/ i < c_step cf \/ i mod c_step cf <> 0.
(** All links lie inside the first page or step. *)
Definition all_fit (cf : cfg) (tops : tree_ops) (lops : list_ops) (st : sst) : Prop :=
  forall i, linked (split_links cf tops lops) st i -> i < c_page cf \/ i < c_step cf.

Section P.
  Variables (cf : cfg) (tops : tree_ops) (lops : list_ops).
  Hypothesis ENV : unit_env cf tops lops.
  Notation SL := (split_links cf tops lops).

  Lemma fits_cap st a : srep cf st a -> last_fits cf tops lops st -> a_top a < s_capacity cf (a_top a).
  Proof.
    intros K LT. pose proof (f_ok cf tops lops ENV) as OK. pose proof (proj1 ENV) as CF.
    pose proof (lo_wf _ _ _ _ OK _ _ K) as W. pose proof (ok_step _ CF).
    destruct (wf_top _ W) as [T|T]; [pose proof (s_capacity_step cf CF (a_top a)); lia|].
    apply (s_capacity_gt cf CF). apply LT; [now apply (ob_linked cf _ _ _ OK _ _ _ K)|].
    intros j J. apply (ob_linked cf _ _ _ OK _ _ _ K) in J. apply (wf_dom _ W) in J. lia.
  Qed.
  Lemma all_fit_cap st a n : srep cf st a -> all_fit cf tops lops st -> n <= a_top a -> n < s_capacity cf n.
  Proof.
    intros K LT LE. pose proof (f_ok cf tops lops ENV) as OK. pose proof (proj1 ENV) as CF.
    pose proof (lo_wf _ _ _ _ OK _ _ K) as W. pose proof (ok_step _ CF).
    apply (s_capacity_gt cf CF). destruct (wf_top _ W) as [T|T]; [lia|].
    destruct (LT (a_top a)); [now apply (ob_linked cf _ _ _ OK _ _ _ K)|lia|lia].
  Qed.
  Lemma same_cells_same st : s_same_cells st st.
  Proof. repeat split; auto. Qed.

  (** What an opened memory shows, compared with the store before. *)
  Lemma placed_get st a sP tP j : smem cf st a sP tP -> all_placed a tP -> li_get SL st j = Val (olink j (a_map a j)).
  Proof. intros R V. exact (s_get_link_ok cf (proj1 ENV) _ _ _ _ j R V). Qed.
  Lemma hidden_li_get st a sP tP i j : smem cf st a sP tP -> hidden a tP i ->
    li_get SL st j = Val (olink j (if j =? i then None else a_map a j)).
  Proof.
    intros R HID. pose proof (hidden_get cf tops lops ENV _ _ _ _ i j R HID) as E. cbn [li_get split_links]. rewrite E.
    unfold without, upd. cbn [a_map]. destruct (j =? i); reflexivity.
  Qed.
End P.

(** * C69 *)
Lemma L_C69_update_is_steps cf tops lops st i os ot s t H (h : whandler H) x :
  is_link (split_links cf tops lops) st i os ot ->
  s_update cf tops h [i] [i; s; t] st x =
    (let* st' := s_stop tops st i os ot s t 6 in
     let (x', f) := h x (mkLink i os ot) (mkLink i s t) in Val (st', x', Ok f)).
Proof.
  intros L. unfold is_link in L. cbn [li_get split_links] in L. unfold s_update.
  change (qget [i] 0) with (Val i). change (qget [i; s; t] 1) with (Val s). change (qget [i; s; t] 2) with (Val t).
  cbn [obind]. rewrite L. cbn [obind l_source l_target]. now rewrite s_stop_relink.
Qed.
Lemma L_C69_points_exist cf tops lops st d i os ot s t k :
  let SL := split_links cf tops lops in
  unit_env cf tops lops -> s_hist cf tops lops st d -> is_link SL st i os ot -> s_oku SL st i s t ->
  all_fit cf tops lops st -> c_page cf + c_step cf * 2 <= c_tmax cf ->
  exists st1 st2, s_stop tops st i os ot s t k = Val st1 /\ s_open cf (s_persist st1 all_grown) = Val (Ok st2).
Proof.
  intros SL ENV HH L OU FT TM. destruct (s_hist_inv cf tops lops ENV st d HH) as (a & K & D).
  pose proof (f_ok _ _ _ ENV) as OK. pose proof (proj1 ENV) as CF.
  apply (ob_link cf _ _ _ OK _ _ _ _ _ K) in L. assert (MN : a_map a i <> None) by congruence.
  apply (ob_oku cf tops lops ENV _ _ _ _ _ K MN) in OU. pose proof K as [(R & W & VI) _]. pose proof (all_placed_tpl _ VI) as V.
  destruct OU as (DET & TS & SELF).
  destruct (s_stop_ok cf tops lops ENV st a _ _ i os ot s t k R V L DET) as (st1 & E1 & _).
  { unfold spl. now rewrite L. }
  { unfold tpl. now rewrite L. }
  { intros X. destruct (SELF X) as (ot' & X'). congruence. }
  destruct (s_stop_inv cf tops lops ENV st a i os ot s t k st1 (proj1 K) L (conj DET (conj TS SELF)) E1)
    as (a' & sP & tP & R1 & T1 & _).
  destruct (s_open_smem cf CF (s_persist st1 all_grown) st1 a' sP tP) as (st2 & E2 & _); try reflexivity.
  - exact (same_cells_same st1).
  - exact R1.
  - rewrite T1. apply (all_fit_cap cf tops lops ENV st a); auto. lia.
  - rewrite T1. assert (TF : a_top a < c_page cf \/ a_top a < c_step cf).
    { destruct (wf_top _ W) as [T|T]; [pose proof (ok_step _ CF); lia|]. apply FT. now apply (ob_linked cf _ _ _ OK _ _ _ K). }
    unfold s_capacity, s_align. pose proof (ok_step _ CF).
    set (m := N.max (N.max (a_top a) (c_page cf)) (c_step cf)).
    assert (m <= c_page cf + c_step cf) by lia.
    destruct (m mod c_step cf =? 0); [lia|]. pose proof (N.mul_div_le m (c_step cf) ltac:(lia)).
    rewrite (N.mul_comm (m / c_step cf)). lia.
  - eauto.
Qed.
(** At these points every link is still there and count and each agree. *)
Lemma L_C69_interrupted_update_partial cf tops lops st d i os ot s t k st1 orc st2 :
  let SL := split_links cf tops lops in
  unit_env cf tops lops -> s_hist cf tops lops st d -> is_link SL st i os ot -> s_oku SL st i s t ->
  last_fits cf tops lops st ->
  s_stop tops st i os ot s t k = Val st1 -> s_open cf (s_persist st1 orc) = Val (Ok st2) ->
  ~ s_detached k os s ->
  frame SL st st2 i /\ is_link SL st2 i (fst (s_fields k os ot s t)) (snd (s_fields k os ot s t)) /\
  exists n, s_count cf st [] = Val n /\ s_count cf st2 [] = Val n /\
    s_each cf (fun m _ => (m + 1, Continue)) [] st2 0 = Val (n, Continue).
Proof.
  intros SL ENV HH L OU FT E1 E2 ND. destruct (s_hist_inv cf tops lops ENV st d HH) as (a & K & D).
  pose proof (f_ok _ _ _ ENV) as OK. pose proof (fits_cap cf tops lops ENV _ _ K FT) as TC.
  apply (ob_link cf _ _ _ OK _ _ _ _ _ K) in L. assert (MN : a_map a i <> None) by congruence.
  apply (ob_oku cf tops lops ENV _ _ _ _ _ K MN) in OU.
  destruct (s_stop_inv cf tops lops ENV st a i os ot s t k st1 (proj1 K) L OU E1) as (a' & sP & tP & R1 & T1 & F1 & MI & MJ & VP & _).
  specialize (VP ND). rewrite <- T1 in TC.
  pose proof (reopen_smem cf tops lops ENV _ _ _ _ _ _ _ (same_cells_same st1) R1 TC E2) as R2.
  split; [|split].
  - intros j J. unfold SL. rewrite (placed_get cf tops lops ENV _ _ _ _ j R2 VP), MJ by auto. symmetry. exact (lo_get _ _ _ _ OK _ _ j K).
  - unfold is_link, SL. rewrite (placed_get cf tops lops ENV _ _ _ _ i R2 VP), MI. destruct (s_fields k os ot s t). reflexivity.
  - assert (EL : length (alinks a') = length (alinks a)).
    { unfold alinks. rewrite !alinks_length_gen, T1. f_equal. apply filter_ext. intros j.
      destruct (N.eq_dec j i) as [->|NE]; [rewrite MI, L; reflexivity|now rewrite MJ]. }
    exists (N.of_nat (length (alinks a))). split; [eapply count_ok; eauto; apply K|].
    destruct (placed_agreed cf tops lops ENV _ _ _ _ R2 VP) as [C1 C2]. rewrite EL in C1, C2. auto.
Qed.
(** At the other points the link is lost: it is not visited and cannot be read, and count
    still counts it. *)
Lemma L_C69_link_lost cf tops lops st d i os ot s t k st1 orc st2 :
  let SL := split_links cf tops lops in
  unit_env cf tops lops -> s_hist cf tops lops st d -> is_link SL st i os ot -> s_oku SL st i s t ->
  last_fits cf tops lops st ->
  s_stop tops st i os ot s t k = Val st1 -> s_open cf (s_persist st1 orc) = Val (Ok st2) ->
  s_detached k os s ->
  frame SL st st2 i /\ no_link SL st2 i /\
  exists n, s_count cf st [] = Val (n + 1) /\ s_count cf st2 [] = Val (n + 1) /\
    s_each cf (fun m _ => (m + 1, Continue)) [] st2 0 = Val (n, Continue).
Proof.
  intros SL ENV HH L OU FT E1 E2 DP. destruct (s_hist_inv cf tops lops ENV st d HH) as (a & K & D).
  pose proof (f_ok _ _ _ ENV) as OK. pose proof (fits_cap cf tops lops ENV _ _ K FT) as TC.
  apply (ob_link cf _ _ _ OK _ _ _ _ _ K) in L. assert (MN : a_map a i <> None) by congruence.
  apply (ob_oku cf tops lops ENV _ _ _ _ _ K MN) in OU.
  destruct (s_stop_inv cf tops lops ENV st a i os ot s t k st1 (proj1 K) L OU E1) as (a' & sP & tP & R1 & T1 & F1 & MI & MJ & _ & HI).
  specialize (HI DP). rewrite <- T1 in TC.
  pose proof (reopen_smem cf tops lops ENV _ _ _ _ _ _ _ (same_cells_same st1) R1 TC E2) as R2.
  assert (W : awf a) by (eapply lo_wf; eauto).
  assert (W' : awf a').
  { apply (awf_same a); auto. intros j. destruct (N.eq_dec j i) as [->|NE]; [rewrite MI, L; split; discriminate|now rewrite MJ]. }
  split; [|split].
  - intros j J. unfold SL. rewrite (hidden_li_get cf tops lops ENV _ _ _ _ i j R2 HI). destruct (N.eqb_spec j i); [contradiction|].
    rewrite MJ by auto. symmetry. exact (lo_get _ _ _ _ OK _ _ j K).
  - unfold no_link, SL. rewrite (hidden_li_get cf tops lops ENV _ _ _ _ i i R2 HI), N.eqb_refl. reflexivity.
  - assert (EL : length (alinks a') = length (alinks a)).
    { unfold alinks. rewrite !alinks_length_gen, T1. f_equal. apply filter_ext. intros j.
      destruct (N.eq_dec j i) as [->|NE]; [rewrite MI, L; reflexivity|now rewrite MJ]. }
    destruct (hidden_disagree cf tops lops ENV _ _ _ _ i R2 W' HI) as (n & EN & C1 & C2). rewrite EL in EN.
    exists n. rewrite <- EN at 1. split; [eapply count_ok; eauto; apply K|auto].
Qed.
(** After the first detach the link can be read, but the search by its source misses it. *)
Lemma L_C69_missed_by_source cf tops lops st d i os ot s t st1 orc st2 :
  let SL := split_links cf tops lops in
  unit_env cf tops lops -> s_hist cf tops lops st d -> is_link SL st i os ot -> s_oku SL st i s t ->
  last_fits cf tops lops st -> linked SL st os ->
  s_stop tops st i os ot s t 1 = Val st1 -> s_open cf (s_persist st1 orc) = Val (Ok st2) ->
  is_link SL st2 i os ot /\
  exists n, s_count cf st [c_any cf; os; c_any cf] = Val (n + 1) /\ s_count cf st2 [c_any cf; os; c_any cf] = Val n.
Proof.
  intros SL ENV HH L OU FT LO E1 E2. destruct (s_hist_inv cf tops lops ENV st d HH) as (a & K & D).
  pose proof (f_ok _ _ _ ENV) as OK. pose proof (proj1 ENV) as CF. pose proof (fits_cap cf tops lops ENV _ _ K FT) as TC.
  assert (IL : is_link SL st2 i os ot).
  { apply (L_C69_interrupted_update_partial cf tops lops st d i os ot s t 1 st1 orc st2); auto. }
  split; [exact IL|]. clear IL.
  apply (ob_link cf _ _ _ OK _ _ _ _ _ K) in L. assert (MN : a_map a i <> None) by congruence.
  apply (ob_oku cf tops lops ENV _ _ _ _ _ K MN) in OU. apply (ob_linked cf _ _ _ OK _ _ _ K) in LO.
  pose proof K as [(R & W & VI) _]. pose proof (all_placed_tpl _ VI) as V. destruct OU as (DET & TS & SELF).
  destruct (s_stop_ok cf tops lops ENV st a _ _ i os ot s t 1 R V L DET) as (st1' & E1' & R1).
  { unfold spl. now rewrite L. }
  { unfold tpl. now rewrite L. }
  { intros X. destruct (SELF X) as (ot' & X'). congruence. }
  assert (st1' = st1) as -> by congruence.
  pose proof (reopen_smem cf tops lops ENV _ _ _ _ _ _ _ (same_cells_same st1) R1 TC E2) as R2.
  apply (sm_dom _ _ _ _ _ R) in LO as LO'. destruct LO' as [OR _].
  assert (CNT : forall st sP, smem cf st a sP (tpl a) -> exists U, NoDup U /\ (forall x, In x U <-> sP x = Int os) /\
     s_count cf st [c_any cf; os; c_any cf] = Val (N.of_nat (length U))).
  { intros st' sP R'. destruct (s_is_walk cf _ _ _ _ os R') as (U & ND & IN & _ & C); [lia|lia|]. exists U. do 2 (split; auto).
    unfold s_count. rewrite (ok_ipart _ CF), (ok_spart _ CF), (ok_tpart _ CF).
    rewrite qget_0, qget_1, qget_2. cbn [obind]. rewrite !(s_is_virtual_ok _ _ _ _ _ _ R' V). cbn [obind]. rewrite N.eqb_refl.
    pose proof (sm_iend _ _ _ _ _ R'). pose proof (ok_iend _ CF). pose proof (ok_any _ CF).
    destruct (N.eqb_spec os (c_any cf)); [lia|]. cbn [andb].
    assert (VF : isvirt a os = false).
    { unfold isvirt. destruct (N.eqb_spec os 0); [lia|]. destruct (a_map a os); congruence. }
    rewrite VF. exact C. }
  destruct (CNT _ _ R) as (U1 & N1 & I1 & C1). destruct (CNT _ _ R2) as (U2 & N2 & I2 & C2).
  assert (PI : spl a i = Int os).
  { unfold spl. rewrite L. apply place_of_int. repeat split; auto. lia. }
  assert (PE : Permutation U1 (i :: U2)).
  { apply NoDup_Permutation; auto.
    - constructor; auto. intros X. apply I2 in X. rewrite upd_same in X. discriminate.
    - intros x. rewrite I1. cbn [In]. rewrite I2. unfold upd. destruct (N.eqb_spec x i) as [->|NE].
      + split; auto.
      + split; [auto|]. intros [X|X]; [congruence|auto]. }
  exists (N.of_nat (length U2)). rewrite C1, C2, (Permutation_length PE). cbn [length]. split; [|auto]. f_equal. lia.
Qed.
Lemma oku_sep {S} (I : LinksI S) st i s t : separable I st i -> t <> 0 -> s <> i -> t <> i -> s_oku I st i s t.
Proof. intros D T0 S1 T1. right. split; auto. split; intros; tauto. Qed.
(** The full statement fails: three links, link 2 = 1 -> 2 is moved to 3 -> 1, and the
    process stops after the second detach. *)
Definition ex_sopened (st : sst) : sst := match s_open ex_cf (s_persist st all_grown) with Val (Ok s) => s | _ => ex_sstart end.
Definition ex_stopped (k : nat) : sst := match s_stop ref_tree_ops (ex_sst ex3) 2 1 2 3 1 k with Val s => s | _ => ex_sstart end.
Lemma L_C69_refuted : exists st d st1 st2,
  s_hist ex_cf ref_tree_ops ref_list_ops st d /\ is_link ex_S st 2 1 2 /\ s_oku ex_S st 2 3 1 /\
  s_stop ref_tree_ops st 2 1 2 3 1 2 = Val st1 /\
  s_open ex_cf (s_persist st1 all_grown) = Val (Ok st2) /\ no_link ex_S st2 2 /\
  s_count ex_cf st2 [] = Val 3 /\ s_each ex_cf (fun m _ => (m + 1, Continue)) [] st2 0 = Val (2, Continue).
Proof.
  destruct ex3_sreach as (d & HH & DP & _ & L2 & _).
  exists (ex_sst ex3), d, (ex_stopped 2), (ex_sopened (ex_stopped 2)).
  split; [exact HH|]. split; [exact L2|].
  split; [apply oku_sep; [apply distinct_separable; exact DP|discriminate|discriminate|discriminate]|].
  split; [vm_compute; reflexivity|]. split; [vm_compute; reflexivity|]. split; [unfold no_link; vm_compute; reflexivity|].
  split; vm_compute; reflexivity.
Qed.
Lemma ex_all_fit l : scheck a_empty l = true ->
  match run ex_S l ex_sstart with Some _ => true | None => false end = true ->
  a_top (arun a_empty l) < c_page ex_cf -> all_fit ex_cf ref_tree_ops ref_list_ops (ex_sst l).
Proof.
  intros A E T i LI. destruct (ex_sreach l A E) as (d & _ & K). pose proof (f_ok _ _ _ ex_env) as OK.
  apply (ob_top ex_cf _ _ _ OK _ _ K) in LI. left. lia.
Qed.
Lemma all_fit_last cf tops lops st : all_fit cf tops lops st -> last_fits cf tops lops st.
Proof. intros A i L _. destruct (A i L); auto. Qed.
(** The hypotheses above are met, at both kinds of points. *)
Lemma L_C69_nonvacuous : exists st d, s_hist ex_cf ref_tree_ops ref_list_ops st d /\
  is_link ex_S st 1 1 1 /\ is_link ex_S st 2 1 2 /\ is_link ex_S st 3 2 1 /\ s_oku ex_S st 2 3 1 /\
  all_fit ex_cf ref_tree_ops ref_list_ops st /\ last_fits ex_cf ref_tree_ops ref_list_ops st /\
  c_page ex_cf + c_step ex_cf * 2 <= c_tmax ex_cf /\
  ~ s_detached 1 1 3 /\ s_detached 2 1 3 /\ s_detached 3 1 3 /\ s_detached 4 1 3 /\ s_detached 5 1 3 /\ ~ s_detached 6 1 3 /\
  (forall k, (k < 7)%nat -> exists st1 st2, s_stop ref_tree_ops st 2 1 2 3 1 k = Val st1 /\
     s_open ex_cf (s_persist st1 all_grown) = Val (Ok st2)).
Proof.
  destruct ex3_sreach as (d & HH & DP & L1 & L2 & L3).
  assert (AF : all_fit ex_cf ref_tree_ops ref_list_ops (ex_sst ex3)) by (apply ex_all_fit; vm_compute; reflexivity).
  exists (ex_sst ex3), d. split; [exact HH|]. split; [exact L1|]. split; [exact L2|]. split; [exact L3|].
  assert (OU : s_oku ex_S (ex_sst ex3) 2 3 1) by (apply oku_sep; [apply distinct_separable; exact DP|discriminate|discriminate|discriminate]).
  split; [exact OU|]. split; [exact AF|]. split; [apply all_fit_last; exact AF|].
  assert (TM : c_page ex_cf + c_step ex_cf * 2 <= c_tmax ex_cf) by (vm_compute; discriminate).
  split; [exact TM|]. do 6 (split; [cbn; try tauto; discriminate|]).
  intros k _. apply (L_C69_points_exist ex_cf ref_tree_ops ref_list_ops (ex_sst ex3) d 2 1 2 3 1 k ex_env HH L2 OU AF TM).
Qed.

(** * C70 *)
Section P70.
  Variables (cf : cfg) (tops : tree_ops) (lops : list_ops).
  Hypothesis ENV : unit_env cf tops lops.
  Notation SL := (split_links cf tops lops).

  Lemma alloc_cells st d i st1 b : s_alloc_mem st d i = (st1, b) -> s_same_cells st1 st.
  Proof.
    unfold s_alloc_mem. destruct (s_orc st 0%nat d i); intros E; injection E as <- _; repeat split; auto.
  Qed.
  Lemma s_grow_cells st st1 r : s_grow cf st = Val (st1, r) -> s_same_cells st1 st.
  Proof.
    unfold s_grow. destruct (csub (sh_reserved st) 1) as [r1| | |]; try discriminate. cbn [obind].
    destruct (r1 <=? sh_alloc st); [|intros E; injection E as <- _; apply same_cells_same].
    destruct (s_alloc_mem st _ _) as [st0 [|]] eqn:EA; [|intros E; injection E as <- _; eapply alloc_cells; eauto].
    destruct (s_header st0); try discriminate. cbn [obind]. destruct (ctry _ _) as [c| | |]; try discriminate. cbn [obind].
    intros E; injection E as <- _. destruct (alloc_cells _ _ _ _ _ EA) as (A1 & A2 & A3 & A4 & A5 & A6 & A7).
    repeat split; auto; cbn [s_set_reserved s_set_src s_is].
    - intros j J. rewrite upd_other by auto. now apply A4.
  Qed.
  Lemma same_reopen st st1 a orc st2 : srep cf st a -> s_same_cells st1 st -> a_top a < s_capacity cf (a_top a) ->
    s_open cf (s_persist st1 orc) = Val (Ok st2) -> s_agreed cf st2 /\ same_links SL st st2.
  Proof.
    intros K SC TC E. pose proof (f_ok _ _ _ ENV) as OK. pose proof K as [(R & W & VI) _]. pose proof (all_placed_tpl _ VI) as V.
    pose proof (reopen_smem cf tops lops ENV _ _ _ _ _ _ _ SC R TC E) as R2. split.
    - eexists. exact (placed_agreed cf tops lops ENV _ _ _ _ R2 V).
    - intros j. rewrite (placed_get cf tops lops ENV _ _ _ _ j R2 V). symmetry. exact (lo_get _ _ _ _ OK _ _ j K).
  Qed.
End P70.

Lemma L_C70_interrupted_create cf tops lops st d st1 orc st2 :
  let SL := split_links cf tops lops in
  unit_env cf tops lops -> s_hist cf tops lops st d -> s_okc SL st st1 ->
  (forall j, linked SL st j -> j + 1 < c_page cf \/ j + 1 < c_step cf) -> 1 < c_step cf ->
  s_create_point cf tops lops st st1 -> s_open cf (s_persist st1 orc) = Val (Ok st2) ->
  s_agreed cf st2 /\
  (same_links SL st st2 \/
   exists i, 1 <= i /\ no_link SL st i /\ is_link SL st2 i 0 0 /\ frame SL st st2 i).
Proof.
  intros SL ENV HH OC LT S1 CP E. destruct (s_hist_inv cf tops lops ENV st d HH) as (a & K & D).
  pose proof (f_ok _ _ _ ENV) as OK. pose proof ENV as (CF & _ & LOK). pose proof K as [(R & W & VI) _].
  assert (TL : a_top a + 1 < c_page cf \/ a_top a + 1 < c_step cf).
  { destruct (wf_top _ W) as [T|T]; [lia|]. apply LT. now apply (ob_linked cf _ _ _ OK _ _ _ K). }
  assert (TC : forall n, n <= a_top a + 1 -> n < s_capacity cf n) by (intros n LE; apply (s_capacity_gt cf CF); destruct TL; [left; lia|right; left; lia]).
  assert (SAME : s_same_cells st1 st -> s_agreed cf st2 /\ same_links SL st st2).
  { intros SC. eapply same_reopen; eauto. apply TC. lia. }
  destruct CP as [|st1 b EA|st1 r EG|H h q x st1 x1 r EC].
  - destruct (SAME (same_cells_same st)). auto.
  - destruct (SAME (alloc_cells _ _ _ _ _ EA)). auto.
  - destruct (SAME (s_grow_cells cf _ _ _ EG)). auto.
  - destruct (s_create_pres cf tops lops ENV st a H h q x st1 x1 r K EC OC) as [K1|K1].
    + pose proof K1 as [(R1 & _ & _) _].
      pose proof (all_placed_tpl _ VI) as V.
      pose proof (reopen_smem cf tops lops ENV _ _ _ _ _ _ _ (same_cells_same st1) R1 (TC (a_top a) ltac:(lia)) E) as R2. split.
      * eexists. exact (placed_agreed cf tops lops ENV _ _ _ _ R2 V).
      * left. intros j. unfold SL. rewrite (placed_get cf tops lops ENV _ _ _ _ j R2 V). symmetry. exact (lo_get _ _ _ _ OK _ _ j K).
    + pose proof K1 as [(R1 & W1 & V1) _]. apply all_placed_tpl in V1.
      assert (T1 : a_top (a_create a) <= a_top a + 1) by (unfold a_create; destruct (a_free a); cbn [a_top]; lia).
      pose proof (reopen_smem cf tops lops ENV _ _ _ _ _ _ _ (same_cells_same st1) R1 (TC _ T1) E) as R2. split.
      { eexists. exact (placed_agreed cf tops lops ENV _ _ _ _ R2 V1). }
      right. destruct (a_next_none a W) as [NN N0]. exists (a_next a). split; [lia|]. split; [|split].
      * now apply (ob_none cf _ _ _ OK _ _ _ K).
      * unfold is_link, SL. rewrite (placed_get cf tops lops ENV _ _ _ _ _ R2 V1), a_create_map, upd_same. reflexivity.
      * intros j J. unfold SL. rewrite (placed_get cf tops lops ENV _ _ _ _ _ R2 V1), a_create_map, upd_other by auto.
        symmetry. exact (lo_get _ _ _ _ OK _ _ j K).
Qed.

Lemma L_C70_delete_is_steps cf tops lops st d i os ot H (h : whandler H) x st' x' f :
  let SL := split_links cf tops lops in
  unit_env cf tops lops -> s_hist cf tops lops st d -> is_link SL st i os ot -> s_okd SL st i ->
  s_delete cf tops lops h [i] st x = Val (st', x', Ok f) ->
  s_delete_at cf tops lops st i os ot SListed st' \/ exists n, s_delete_at cf tops lops st i os ot (STrimming n) st'.
Proof.
  intros SL ENV HH L OD E.
  assert (L0 : forall st0, s_resolve_internal cf tops st i = Val st0 -> is_link SL st0 i os ot).
  { destruct (s_hist_inv cf tops lops ENV st d HH) as (a & K & _). pose proof (f_ok _ _ _ ENV) as OK.
    apply (ob_link cf _ _ _ OK _ _ _ _ _ K) in L. assert (MN : a_map a i <> None) by congruence.
    apply (ob_okd cf tops lops ENV _ _ _ K MN) in OD. pose proof K as [(R & W & VI) _]. pose proof (all_placed_tpl _ VI) as V.
    destruct ENV as (CF & TOK & LOK).
    destruct (s_resolve_internal_ok cf CF tops TOK _ _ _ _ i R V MN (proj2 OD)) as (st0 & E0 & R0 & _).
    intros st0' E0'. assert (st0' = st0) as -> by congruence. unfold is_link, SL.
    rewrite (placed_get cf tops lops (conj CF (conj TOK LOK)) _ _ _ _ i R0 (moved_placed _ i _ V)), L. reflexivity. }
  unfold is_link in L, L0. cbn [li_get split_links SL] in L, L0. unfold s_delete in E.
  change (qget [i] 0) with (Val i) in E. cbn [obind] in E. rewrite L in E. cbn [obind] in E.
  destruct (s_resolve_internal cf tops st i) as [st0| | |] eqn:E0; try discriminate. cbn [obind] in E.
  unfold s_update in E. change (qget [i] 0) with (Val i) in E. change (qget [i; 0; 0] 1) with (Val 0) in E. change (qget [i; 0; 0] 2) with (Val 0) in E.
  cbn [obind] in E. rewrite (L0 _ eq_refl) in E. cbn [obind l_source l_target] in E.
  destruct (s_relink tops st0 i os ot 0 0) as [st1| | |] eqn:E1; try discriminate. cbn [obind] in E.
  destruct (s_header st1); try discriminate. cbn [obind] in E.
  destruct (N.compare_spec i (sh_alloc st1)) as [C|C|C]; [| |discriminate].
  - destruct (csub (sh_alloc st1) 1) as [a1| | |] eqn:EC; try discriminate. cbn [obind] in E.
    assert (EA : a1 = sh_alloc st1 - 1) by (unfold csub in EC; destruct (1 <=? sh_alloc st1); [injection EC as <-; reflexivity|discriminate]).
    subst a1. destruct (s_trim lops _ _) as [st3| | |] eqn:ET; try discriminate. cbn [obind] in E.
    destruct (h x (mkLink i os ot) nothing). injection E as <- _ _.
    destruct (s_trim_trimmed lops _ _ _ ET) as [n T]. right. exists n, st0, st1. auto.
  - destruct (s_unused_attach lops st1 i) as [st3| | |] eqn:ET; try discriminate. cbn [obind] in E.
    destruct (h x (mkLink i os ot) nothing). injection E as <- _ _. left. exists st0, st1. auto.
Qed.

(** Until the link itself is touched, and after the list of unused links has been updated,
    the reopened store shows the links before or after the deletion. *)
Lemma L_C70_interrupted_delete_partial cf tops lops st d i os ot p st1 orc st2 :
  let SL := split_links cf tops lops in
  unit_env cf tops lops -> s_hist cf tops lops st d -> is_link SL st i os ot -> s_okd SL st i ->
  all_fit cf tops lops st ->
  s_delete_at cf tops lops st i os ot p st1 -> s_open cf (s_persist st1 orc) = Val (Ok st2) ->
  match p with
  | Resolving (MidTarget _ x) => exists t, is_link SL st x 0 t
  | Resolving _ => True
  | Emptying k => k = 0%nat \/ k = 1%nat
  | SListed | STrimming _ => True
  | SDetaching _ => False
  end ->
  s_agreed cf st2 /\
  match p with
  | Resolving _ | Emptying _ => same_links SL st st2
  | _ => no_link SL st2 i /\ frame SL st st2 i
  end.
Proof.
  intros SL ENV HH L OD FT E1 E2 P. destruct (s_hist_inv cf tops lops ENV st d HH) as (a & K & D).
  pose proof (f_ok _ _ _ ENV) as OK.
  apply (ob_link cf _ _ _ OK _ _ _ _ _ K) in L. assert (MN : a_map a i <> None) by congruence.
  apply (ob_okd cf tops lops ENV _ _ _ K MN) in OD.
  destruct (s_delete_at_seen cf tops lops ENV st a i os ot p st1 (proj1 K) L OD E1) as (a' & sP & tP & R1 & LE & V).
  pose proof (reopen_smem cf tops lops ENV _ _ _ _ _ _ _ (same_cells_same st1) R1 (all_fit_cap cf tops lops ENV _ _ _ K FT LE) E2) as R2.
  assert (SAME : all_placed a' tP -> (forall j, a_map a' j = a_map a j) -> s_agreed cf st2 /\ same_links SL st st2).
  { intros VP MJ. split; [eexists; exact (placed_agreed cf tops lops ENV _ _ _ _ R2 VP)|]. intros j. unfold SL.
    rewrite (placed_get cf tops lops ENV _ _ _ _ j R2 VP), MJ. symmetry. exact (lo_get _ _ _ _ OK _ _ j K). }
  assert (GONE : all_placed a' tP -> a_map a' i = None -> (forall j, j <> i -> a_map a' j = a_map a j) ->
     s_agreed cf st2 /\ no_link SL st2 i /\ frame SL st st2 i).
  { intros VP MI MJ. split; [eexists; exact (placed_agreed cf tops lops ENV _ _ _ _ R2 VP)|]. split.
    - unfold no_link, SL. rewrite (placed_get cf tops lops ENV _ _ _ _ i R2 VP), MI. reflexivity.
    - intros j J. unfold SL. rewrite (placed_get cf tops lops ENV _ _ _ _ j R2 VP), MJ by auto. symmetry. exact (lo_get _ _ _ _ OK _ _ j K). }
  destruct p as [[n|n x|n|n x]|k| |n|n].
  - apply SAME; apply V.
  - apply SAME; apply V.
  - apply SAME; apply V.
  - destruct V as (_ & MJ & _ & s & MX & V1 & V2). apply SAME; [|exact MJ]. apply V1.
    destruct P as [t P]. apply (ob_link cf _ _ _ OK _ _ _ _ _ K) in P. congruence.
  - destruct V as (_ & MI & MJ & V1 & _). apply SAME.
    + apply V1. destruct P as [-> | ->]; cbn; tauto.
    + intros j. destruct (N.eq_dec j i) as [->|J]; [|auto]. rewrite MI, L. destruct P as [-> | ->]; reflexivity.
  - destruct V as (VP & MI & MJ). auto.
  - destruct V as (VP & MI & MJ). auto.
  - contradiction.
Qed.
(** Between the two halves of the move of a link that has the deleted link as its target,
    that other link is lost. *)
Lemma L_C70_user_lost cf tops lops st d i os ot n x s t st1 orc st2 :
  let SL := split_links cf tops lops in
  unit_env cf tops lops -> s_hist cf tops lops st d -> is_link SL st i os ot -> s_okd SL st i ->
  all_fit cf tops lops st -> is_link SL st x s t -> s <> 0 ->
  s_delete_at cf tops lops st i os ot (Resolving (MidTarget n x)) st1 -> s_open cf (s_persist st1 orc) = Val (Ok st2) ->
  t = i /\ x <> i /\ no_link SL st2 x /\ is_link SL st2 i os ot /\ frame SL st st2 x /\
  exists n, s_count cf st2 [] = Val (n + 1) /\ s_each cf (fun m _ => (m + 1, Continue)) [] st2 0 = Val (n, Continue).
Proof.
  intros SL ENV HH L OD FT LX S0 E1 E2. destruct (s_hist_inv cf tops lops ENV st d HH) as (a & K & D).
  pose proof (f_ok _ _ _ ENV) as OK. assert (LI := L).
  apply (ob_link cf _ _ _ OK _ _ _ _ _ K) in L. assert (MN : a_map a i <> None) by congruence.
  apply (ob_link cf _ _ _ OK _ _ _ _ _ K) in LX.
  apply (ob_okd cf tops lops ENV _ _ _ K MN) in OD.
  destruct (s_delete_at_seen cf tops lops ENV st a i os ot _ st1 (proj1 K) L OD E1) as (a' & sP & tP & R1 & LE & W & MJ & NE & s' & MX & _ & HI).
  rewrite MX in LX. injection LX as -> ->. specialize (HI S0).
  pose proof (reopen_smem cf tops lops ENV _ _ _ _ _ _ _ (same_cells_same st1) R1 (all_fit_cap cf tops lops ENV _ _ _ K FT LE) E2) as R2.
  assert (FR : frame SL st st2 x).
  { intros j J. unfold SL. rewrite (hidden_li_get cf tops lops ENV _ _ _ _ x j R2 HI). destruct (N.eqb_spec j x); [contradiction|].
    rewrite MJ. symmetry. exact (lo_get _ _ _ _ OK _ _ j K). }
  split; auto. split; auto. split; [|split; [|split]]; auto.
  - unfold no_link, SL. rewrite (hidden_li_get cf tops lops ENV _ _ _ _ x x R2 HI), N.eqb_refl. reflexivity.
  - unfold is_link. rewrite FR by auto. exact LI.
  - destruct (hidden_disagree cf tops lops ENV _ _ _ _ x R2 W HI) as (m & _ & C1 & C2). eauto.
Qed.
(** After the two detaches, before the fields are written, the link is gone but counted;
    after the first field it is shown as 0 -> its old target, after the second as 0 -> 0. *)
Lemma L_C70_half_deleted cf tops lops st d i os ot k st1 orc st2 :
  let SL := split_links cf tops lops in
  unit_env cf tops lops -> s_hist cf tops lops st d -> is_link SL st i os ot -> s_okd SL st i ->
  all_fit cf tops lops st -> (2 <= k)%nat ->
  s_delete_at cf tops lops st i os ot (Emptying k) st1 -> s_open cf (s_persist st1 orc) = Val (Ok st2) ->
  frame SL st st2 i /\
  match k with
  | 2%nat => (os = 0 -> is_link SL st2 i 0 ot /\ s_agreed cf st2) /\
      (os <> 0 -> no_link SL st2 i /\
         exists n, s_count cf st2 [] = Val (n + 1) /\ s_each cf (fun m _ => (m + 1, Continue)) [] st2 0 = Val (n, Continue))
  | 3%nat => is_link SL st2 i 0 ot /\ s_agreed cf st2
  | _ => is_link SL st2 i 0 0 /\ s_agreed cf st2
  end.
Proof.
  intros SL ENV HH L OD FT K2 E1 E2. destruct (s_hist_inv cf tops lops ENV st d HH) as (a & K & D).
  pose proof (f_ok _ _ _ ENV) as OK.
  apply (ob_link cf _ _ _ OK _ _ _ _ _ K) in L. assert (MN : a_map a i <> None) by congruence.
  apply (ob_okd cf tops lops ENV _ _ _ K MN) in OD.
  destruct (s_delete_at_seen cf tops lops ENV st a i os ot _ st1 (proj1 K) L OD E1) as (a' & sP & tP & R1 & LE & W & MI & MJ & V1 & V2).
  pose proof (reopen_smem cf tops lops ENV _ _ _ _ _ _ _ (same_cells_same st1) R1 (all_fit_cap cf tops lops ENV _ _ _ K FT LE) E2) as R2.
  assert (SEEN : ~ s_detached k os 0 -> frame SL st st2 i /\
     is_link SL st2 i (fst (s_fields k os ot 0 0)) (snd (s_fields k os ot 0 0)) /\ s_agreed cf st2).
  { intros ND. specialize (V1 ND). split; [|split].
    - intros j J. unfold SL. rewrite (placed_get cf tops lops ENV _ _ _ _ j R2 V1), MJ by auto. symmetry. exact (lo_get _ _ _ _ OK _ _ j K).
    - unfold is_link, SL. rewrite (placed_get cf tops lops ENV _ _ _ _ i R2 V1), MI. destruct (s_fields k os ot 0 0). reflexivity.
    - eexists. exact (placed_agreed cf tops lops ENV _ _ _ _ R2 V1). }
  assert (LOST : s_detached k os 0 -> frame SL st st2 i /\ no_link SL st2 i /\
     exists n, s_count cf st2 [] = Val (n + 1) /\ s_each cf (fun m _ => (m + 1, Continue)) [] st2 0 = Val (n, Continue)).
  { intros ND. specialize (V2 ND). split; [|split].
    - intros j J. unfold SL. rewrite (hidden_li_get cf tops lops ENV _ _ _ _ i j R2 V2). destruct (N.eqb_spec j i); [contradiction|].
      rewrite MJ by auto. symmetry. exact (lo_get _ _ _ _ OK _ _ j K).
    - unfold no_link, SL. rewrite (hidden_li_get cf tops lops ENV _ _ _ _ i i R2 V2), N.eqb_refl. reflexivity.
    - destruct (hidden_disagree cf tops lops ENV _ _ _ _ i R2 W V2) as (m & _ & C1 & C2). eauto. }
  destruct k as [|[|[|[|k]]]]; [lia|lia| | |].
  - cbn [s_detached s_fields fst snd] in SEEN, LOST. destruct (N.eq_dec os 0) as [O0|O0].
    + destruct SEEN as (FR & IL & AG); [tauto|]. split; [exact FR|]. split; [|tauto]. intros _. subst os. auto.
    + destruct (LOST O0) as (FR & NL & CO). split; [exact FR|]. split; [tauto|auto].
  - apply SEEN. cbn. tauto.
  - assert (ND : ~ s_detached (S (S (S (S k)))) os 0) by (destruct k as [|[|k]]; cbn; tauto).
    exact (SEEN ND).
Qed.
(** In the middle of a round of the trim loop, a link deleted earlier is there again. *)
Lemma L_C70_deleted_link_returns cf tops lops st d i os ot n st1 orc st2 :
  let SL := split_links cf tops lops in
  unit_env cf tops lops -> s_hist cf tops lops st d -> is_link SL st i os ot -> s_okd SL st i ->
  all_fit cf tops lops st ->
  s_delete_at cf tops lops st i os ot (SDetaching n) st1 -> s_open cf (s_persist st1 orc) = Val (Ok st2) ->
  s_agreed cf st2 /\ no_link SL st2 i /\
  exists k, 1 <= k < i /\ no_link SL st k /\ is_link SL st2 k 0 0 /\
    forall j, j <> i -> j <> k -> li_get SL st2 j = li_get SL st j.
Proof.
  intros SL ENV HH L OD FT E1 E2. destruct (s_hist_inv cf tops lops ENV st d HH) as (a & K & D).
  pose proof (f_ok _ _ _ ENV) as OK.
  apply (ob_link cf _ _ _ OK _ _ _ _ _ K) in L. assert (MN : a_map a i <> None) by congruence.
  apply (ob_okd cf tops lops ENV _ _ _ K MN) in OD.
  destruct (s_delete_at_seen cf tops lops ENV st a i os ot _ st1 (proj1 K) L OD E1) as (a' & sP & tP & R1 & LE & V & k & KR & MK & MK1 & MI & MJ).
  pose proof (reopen_smem cf tops lops ENV _ _ _ _ _ _ _ (same_cells_same st1) R1 (all_fit_cap cf tops lops ENV _ _ _ K FT LE) E2) as R2.
  split; [eexists; exact (placed_agreed cf tops lops ENV _ _ _ _ R2 V)|].
  split; [unfold no_link, SL; rewrite (placed_get cf tops lops ENV _ _ _ _ i R2 V), MI; reflexivity|].
  exists k. split; [exact KR|]. split; [now apply (ob_none cf _ _ _ OK _ _ _ K)|]. split.
  - unfold is_link, SL. rewrite (placed_get cf tops lops ENV _ _ _ _ k R2 V), MK1. reflexivity.
  - intros j J1 J2. unfold SL. rewrite (placed_get cf tops lops ENV _ _ _ _ j R2 V), MJ by auto. symmetry. exact (lo_get _ _ _ _ OK _ _ j K).
Qed.
(** The full statement fails of deletions.  Links 1 = 1 -> 1, 2 = 1 -> 2, 3 = 2 -> 1: while
    link 1 is being deleted, link 3 is lost.  Links 1 and 3, link 2 deleted before, while
    link 3 is being deleted: after the two detaches it is gone but counted, after the first
    field it is 0 -> 1, and in the first round of the loop link 2 is there again. *)
Definition ex_sdel : list cmd := ex3 ++ [De 2].
Definition ex_val (o : out sst) : sst := match o with Val s => s | _ => ex_sstart end.
Definition ex_list (o : out (list link)) : list link := match o with Val l => l | _ => [] end.
Definition ex_us : list link := ex_list (users_s ex_cf (ex_sst ex3) 1).
Definition ex_m0 : sst := ex_val (s_for ex_us (move_s ref_tree_ops 1) (ex_sst ex3)).
Definition ex_ut : list link := ex_list (users_t ex_cf ex_m0 1).
Definition ex_m1 : sst := ex_val (s_detach_it ref_tree_ops ex_m0 1 3).
Definition ex_r0 : sst := ex_val (s_resolve_internal ex_cf ref_tree_ops (ex_sst ex_sdel) 3).
Definition ex_e (k : nat) : sst := ex_val (s_stop ref_tree_ops ex_r0 3 2 1 0 0 k).
Definition ex_low : sst := s_set_alloc (ex_e 6) (sh_alloc (ex_e 6) - 1).
Definition ex_det : sst := ex_val (s_unused_detach ref_list_ops ex_low 2).
Lemma ex_m1_at : s_delete_at ex_cf ref_tree_ops ref_list_ops (ex_sst ex3) 1 1 1 (Resolving (MidTarget 0 3)) ex_m1.
Proof.
  exists ex_us. split; [vm_compute; reflexivity|]. exists ex_m0, ex_ut.
  split; [vm_compute; reflexivity|]. split; [vm_compute; reflexivity|]. exists ex_m0, (mkLink 3 2 1).
  split; [reflexivity|]. split; [vm_compute; reflexivity|]. split; [reflexivity|]. vm_compute; reflexivity.
Qed.
Lemma ex_e_at k : (k < 7)%nat -> s_delete_at ex_cf ref_tree_ops ref_list_ops (ex_sst ex_sdel) 3 2 1 (Emptying k) (ex_e k).
Proof.
  intros KL. exists ex_r0. split; [vm_compute; reflexivity|].
  do 7 (destruct k as [|k]; [vm_compute; reflexivity|]). lia.
Qed.
Lemma ex_det_at : s_delete_at ex_cf ref_tree_ops ref_list_ops (ex_sst ex_sdel) 3 2 1 (SDetaching 0) ex_det.
Proof.
  exists ex_r0, (ex_e 6). split; [vm_compute; reflexivity|]. split; [vm_compute; reflexivity|]. split; [vm_compute; reflexivity|].
  exists ex_low. split; [reflexivity|]. split; [vm_compute; reflexivity|]. split; vm_compute; reflexivity.
Qed.
Lemma L_C70_refuted :
  (exists st d st1 st2, s_hist ex_cf ref_tree_ops ref_list_ops st d /\ distinct_pairs ex_S st /\
     is_link ex_S st 1 1 1 /\ is_link ex_S st 3 2 1 /\
     s_delete_at ex_cf ref_tree_ops ref_list_ops st 1 1 1 (Resolving (MidTarget 0 3)) st1 /\
     s_open ex_cf (s_persist st1 all_grown) = Val (Ok st2) /\ is_link ex_S st2 1 1 1 /\ no_link ex_S st2 3 /\ s_count ex_cf st2 [] = Val 3) /\
  (exists st d, s_hist ex_cf ref_tree_ops ref_list_ops st d /\ distinct_pairs ex_S st /\
     is_link ex_S st 3 2 1 /\ no_link ex_S st 2 /\
     (exists st1 st2, s_delete_at ex_cf ref_tree_ops ref_list_ops st 3 2 1 (Emptying 2) st1 /\
        s_open ex_cf (s_persist st1 all_grown) = Val (Ok st2) /\ no_link ex_S st2 3 /\ s_count ex_cf st2 [] = Val 2) /\
     (exists st1 st2, s_delete_at ex_cf ref_tree_ops ref_list_ops st 3 2 1 (Emptying 3) st1 /\
        s_open ex_cf (s_persist st1 all_grown) = Val (Ok st2) /\ is_link ex_S st2 3 0 1) /\
     (exists st1 st2, s_delete_at ex_cf ref_tree_ops ref_list_ops st 3 2 1 (SDetaching 0) st1 /\
        s_open ex_cf (s_persist st1 all_grown) = Val (Ok st2) /\ no_link ex_S st2 3 /\ is_link ex_S st2 2 0 0)).
Proof.
  split.
  - destruct ex3_sreach as (d & HH & DP & L1 & L2 & L3).
    exists (ex_sst ex3), d, ex_m1, (ex_sopened ex_m1). split; [exact HH|]. split; [exact DP|]. split; [exact L1|]. split; [exact L3|].
    split; [exact ex_m1_at|]. split; [vm_compute; reflexivity|]. split; [unfold is_link; vm_compute; reflexivity|].
    split; [unfold no_link; vm_compute; reflexivity|]. vm_compute; reflexivity.
  - destruct (ex_sreach ex_sdel) as (d & HH & _); [vm_compute; reflexivity..|].
    assert (DP : distinct_pairs ex_S (ex_sst ex_sdel)) by (apply ex_sdistinct; vm_compute; reflexivity).
    exists (ex_sst ex_sdel), d. split; [exact HH|]. split; [exact DP|].
    split; [unfold is_link; vm_compute; reflexivity|]. split; [unfold no_link; vm_compute; reflexivity|]. split; [|split].
    + exists (ex_e 2), (ex_sopened (ex_e 2)). split; [apply ex_e_at; lia|]. split; [vm_compute; reflexivity|].
      split; [unfold no_link; vm_compute; reflexivity|]. vm_compute; reflexivity.
    + exists (ex_e 3), (ex_sopened (ex_e 3)). split; [apply ex_e_at; lia|]. split; [vm_compute; reflexivity|].
      unfold is_link; vm_compute; reflexivity.
    + exists ex_det, (ex_sopened ex_det). split; [exact ex_det_at|]. split; [vm_compute; reflexivity|].
      split; [unfold no_link|unfold is_link]; vm_compute; reflexivity.
Qed.
(** The hypotheses above are met: a creation that has to grow the memories, and deletions
    stopped at the points not shown above. *)
Definition ex_sfull : list cmd := [Cr; Cr; Cr; Cr; Cr; Cr].
Definition ex_grown : sst := fst (s_alloc_mem (ex_sst ex_sfull) (s_dcap (ex_sst ex_sfull) + c_step ex_cf) (s_ilen (ex_sst ex_sfull) + c_step ex_cf)).
Lemma ex_okc l st1 : scheck a_empty l = true ->
  match run ex_S l ex_sstart with Some _ => true | None => false end = true ->
  forallb (fun k => (l_source k =? 0) && (l_target k =? 0)) (alinks (arun a_empty l)) = true ->
  li_get ex_S st1 0 = Val None -> s_okc ex_S (ex_sst l) st1.
Proof.
  intros A E F G i _ (s & t & LI) x xs xt LX. destruct (ex_sreach l A E) as (d & _ & K). pose proof (f_ok _ _ _ ex_env) as OK.
  assert (I0 : i <> 0) by (intros ->; unfold is_link in LI; congruence).
  apply (ob_link ex_cf _ _ _ OK _ _ _ _ _ K) in LX. pose proof (lo_wf _ _ _ _ OK _ _ K) as W.
  apply (in_alinks _ _ _ _ W) in LX. rewrite forallb_forall in F. specialize (F _ LX). cbn [l_source l_target] in F.
  apply andb_true_iff in F as [F1 F2]. apply N.eqb_eq in F1, F2. lia.
Qed.
Definition ex_mid : sst := ex_val (s_detach_is ref_tree_ops (ex_sst ex3) 1 2).
Definition ex_ls : sst :=
  ex_val (s_unused_attach ref_list_ops (ex_val (s_relink ref_tree_ops (ex_val (s_resolve_internal ex_cf ref_tree_ops (ex_sst ex_sdel) 1)) 1 1 1 0 0)) 1).
Lemma L_C70_nonvacuous :
  (exists st d st1 st2, s_hist ex_cf ref_tree_ops ref_list_ops st d /\ linked ex_S st 6 /\
     sh_reserved st - 1 <= sh_alloc st /\ sh_first st = 0 /\
     s_alloc_mem st (s_dcap st + c_step ex_cf) (s_ilen st + c_step ex_cf) = (st1, true) /\
     s_create_point ex_cf ref_tree_ops ref_list_ops st st1 /\ s_okc ex_S st st1 /\
     (forall j, linked ex_S st j -> j + 1 < c_page ex_cf \/ j + 1 < c_step ex_cf) /\ 1 < c_step ex_cf /\ s_open ex_cf (s_persist st1 all_grown) = Val (Ok st2)) /\
  (exists st d st1 st2, s_hist ex_cf ref_tree_ops ref_list_ops st d /\ s_okd ex_S st 1 /\ all_fit ex_cf ref_tree_ops ref_list_ops st /\
     is_link ex_S st 1 1 1 /\ is_link ex_S st 2 1 2 /\
     s_delete_at ex_cf ref_tree_ops ref_list_ops st 1 1 1 (Resolving (MidSource 0 2)) st1 /\
     s_open ex_cf (s_persist st1 all_grown) = Val (Ok st2)) /\
  (exists st d, s_hist ex_cf ref_tree_ops ref_list_ops st d /\ s_okd ex_S st 1 /\ s_okd ex_S st 3 /\ all_fit ex_cf ref_tree_ops ref_list_ops st /\
     is_link ex_S st 1 1 1 /\ is_link ex_S st 3 2 1 /\
     (exists st1 st2, s_delete_at ex_cf ref_tree_ops ref_list_ops st 1 1 1 SListed st1 /\ s_open ex_cf (s_persist st1 all_grown) = Val (Ok st2)) /\
     (exists st1 st2, s_delete_at ex_cf ref_tree_ops ref_list_ops st 3 2 1 (STrimming 1) st1 /\ s_open ex_cf (s_persist st1 all_grown) = Val (Ok st2)) /\
     (forall k, (k < 7)%nat -> exists st1 st2, s_delete_at ex_cf ref_tree_ops ref_list_ops st 3 2 1 (Emptying k) st1 /\
        s_open ex_cf (s_persist st1 all_grown) = Val (Ok st2))).
Proof.
  split; [|split].
  - destruct (ex_sreach ex_sfull) as (d & HH & K); [vm_compute; reflexivity..|].
    assert (EA : s_alloc_mem (ex_sst ex_sfull) (s_dcap (ex_sst ex_sfull) + c_step ex_cf) (s_ilen (ex_sst ex_sfull) + c_step ex_cf) = (ex_grown, true))
      by (vm_compute; reflexivity).
    exists (ex_sst ex_sfull), d, ex_grown, (ex_sopened ex_grown). split; [exact HH|].
    split; [exists 0, 0; unfold is_link; vm_compute; reflexivity|]. split; [vm_compute; discriminate|]. split; [vm_compute; reflexivity|].
    split; [exact EA|]. split; [apply (SP_alloc _ _ _ _ _ true); exact EA|].
    split; [apply ex_okc; vm_compute; reflexivity|]. split; [|split; vm_compute; reflexivity].
    intros j LJ. apply (ob_top ex_cf _ _ _ (f_ok _ _ _ ex_env) _ _ K) in LJ. right.
    assert (T : a_top (arun a_empty ex_sfull) = 6) by (vm_compute; reflexivity). rewrite T in LJ. change (c_step ex_cf) with 8. lia.
  - destruct ex3_sreach as (d & HH & DP & L1 & L2 & L3).
    exists (ex_sst ex3), d, ex_mid, (ex_sopened ex_mid). split; [exact HH|]. split; [apply s_okd_distinct; exact DP|].
    split; [apply ex_all_fit; vm_compute; reflexivity|]. split; [exact L1|]. split; [exact L2|]. split; [|vm_compute; reflexivity].
    exists ex_us. split; [vm_compute; reflexivity|]. exists (ex_sst ex3), (mkLink 2 1 2). split; [reflexivity|].
    split; [vm_compute; reflexivity|]. split; [reflexivity|]. vm_compute; reflexivity.
  - destruct (ex_sreach ex_sdel) as (d & HH & _); [vm_compute; reflexivity..|].
    assert (DP : distinct_pairs ex_S (ex_sst ex_sdel)) by (apply ex_sdistinct; vm_compute; reflexivity).
    exists (ex_sst ex_sdel), d. split; [exact HH|]. split; [apply s_okd_distinct; exact DP|]. split; [apply s_okd_distinct; exact DP|].
    split; [apply ex_all_fit; vm_compute; reflexivity|].
    split; [unfold is_link; vm_compute; reflexivity|]. split; [unfold is_link; vm_compute; reflexivity|]. split; [|split].
    + exists ex_ls, (ex_sopened ex_ls). split; [|vm_compute; reflexivity].
      exists (ex_val (s_resolve_internal ex_cf ref_tree_ops (ex_sst ex_sdel) 1)).
      exists (ex_val (s_relink ref_tree_ops (ex_val (s_resolve_internal ex_cf ref_tree_ops (ex_sst ex_sdel) 1)) 1 1 1 0 0)).
      split; [vm_compute; reflexivity|]. split; [vm_compute; reflexivity|]. split; vm_compute; reflexivity.
    + exists (s_set_alloc ex_det 1), (ex_sopened (s_set_alloc ex_det 1)). split; [|vm_compute; reflexivity].
      exists ex_r0, (ex_e 6). split; [vm_compute; reflexivity|]. split; [vm_compute; reflexivity|]. split; [vm_compute; reflexivity|].
      cbn [s_trimmed]. split; [vm_compute; reflexivity|]. split; [vm_compute; reflexivity|]. exists ex_det. split; vm_compute; reflexivity.
    + intros k KL. exists (ex_e k), (ex_sopened (ex_e k)). split; [apply ex_e_at; exact KL|].
      do 7 (destruct k as [|k]; [vm_compute; reflexivity|]). lia.
Qed.
