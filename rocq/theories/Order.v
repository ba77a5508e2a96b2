(** The order in which links are visited (proofs; the statements are repeated in PropOrder.v). *)
From Coq Require Import NArith List Bool Lia Permutation Sorted.
From Verif Require Import Base Trees Lists TreeInv TreeImpl Spec Iface Doublets DoubletsOK Obs Hist Claims
  UnitModel UnitInv UnitOps UnitLinks UnitHist UnitClaims SplitModel Forest SplitInv SplitReads SplitOps SplitWrites SplitLinks SplitHist SplitClaims.
Import ListNotations.
Open Scope N_scope.

(** ** Statements *)
(** Two stores hold the same links. *)
Definition agree {S1 S2} (I1 : LinksI S1) (st1 : S1) (I2 : LinksI S2) (st2 : S2) : Prop :=
  forall i, li_get I1 st1 i = li_get I2 st2 i.
(** Visited by ascending target. *)
Definition by_target (L : list link) : Prop := StronglySorted (fun k l => l_target k <= l_target l) L.

(** ** The walk over the links of a source in the two-memory store *)
Lemma int_each_sorted len n k c root (P : N -> Prop) fuel :
  (forall i, P i -> 1 <= i <= n) -> n < len -> (N.to_nat n < fuel)%nat -> tree_inv k c root P ->
  exists U, NoDup U /\ wsorted k U /\ (forall i, In i U <-> P i) /\
    forall H lk (h : rhandler H) s, each_inorder fuel len c lk root h s = Val (run_handler h (map lk U) s).
Proof.
  intros B NL F (t & HR & ND & HS & HE).
  exists (elems t). do 3 (split; auto).
  assert (HT : (height t < fuel)%nat).
  { assert (tsize t <= n) by (unfold tsize; apply bounded_length; auto; intros i Hi; apply B, HE, Hi).
    pose proof (height_elems t). unfold tsize in *. lia. }
  assert (Bt : forall i, In i (elems t) -> i < len) by (intros i Hi; apply HE, B in Hi; lia).
  intros. apply each_inorder_ok; auto.
Qed.

Section Walk.
  Variable cf : cfg.
  Hypothesis CF : cfg_ok cf.

  Lemma s_is_sorted st a v p : sinv cf st a -> a_map a v = Some p ->
    exists U, NoDup U /\ (forall i, In i U <-> exists t, a_map a i = Some (v, t)) /\
      by_target (map (link_of (s_data st)) U) /\
      (forall H (h : rhandler H) x, s_is_each st v h x = Val (run_handler h (map (link_of (s_data st)) U) x)).
  Proof.
    intros (R & W & VS) EV. pose proof (awf_some _ _ _ W EV) as [VR _].
    pose proof (sm_len _ _ _ _ _ R) as HL.
    destruct (int_each_sorted (s_ilen st) (a_top a) (key_is (s_data st)) (s_is st) (s_rs st v) (fun x => spl a x = Int v) (s_fuel st))
      as (U & U1 & U2 & U3 & U4).
    - intros i K. eapply sm_srange; eauto. congruence.
    - lia.
    - eapply s_fuel_ok; eauto.
    - apply (fo_int _ _ _ _ _ _ (sm_src _ _ _ _ _ R) v). lia.
    - exists U. split; auto. split.
      { intros i. rewrite U3. split.
        - intros K. apply spl_int in K as (t & K & _). eauto.
        - intros (t & K). apply spl_int. exists t. split; auto. split; [lia|congruence]. }
      split.
      + unfold by_target. clear -U2. unfold wsorted in U2. induction U2 as [|x U S IH F]; cbn [map]; constructor; auto.
        rewrite Forall_map. eapply Forall_impl; [|exact F]. intros y K. apply klt_false_fst in K.
        unfold key_is in K. cbn [fst] in K. unfold link_of. cbn [l_target]. exact K.
      + intros H h x. unfold s_is_each. rewrite rd_ok by lia. cbn [obind]. rewrite (s_view_ok _ _ _ _ _ R). cbn [obind].
        rewrite (s_len_ok _ _ _ _ _ R). apply U4.
  Qed.
End Walk.

(** Two sorted lists of the same links of one source, no two of which have the same target. *)
Lemma by_target_det (L K : list link) : by_target L -> by_target K -> NoDup L -> NoDup K ->
  (forall l, In l L <-> In l K) -> (forall k l, In k L -> In l L -> l_target k = l_target l -> k = l) -> L = K.
Proof.
  unfold by_target. revert K. induction L as [|x L IH]; intros K SL SK NL NK EQ DT.
  - destruct K as [|y K]; auto. exfalso. apply (EQ y). now left.
  - destruct K as [|y K]; [exfalso; apply (EQ x); now left|].
    inversion SL as [|? ? SL' FL]; subst. inversion SK as [|? ? SK' FK]; subst.
    inversion NL; subst. inversion NK; subst. rewrite Forall_forall in FL, FK.
    assert (XY : x = y).
    { assert (X : In x (y :: K)) by (apply EQ; now left). assert (Y : In y (x :: L)) by (apply EQ; now left).
      destruct X as [->|X]; auto. destruct Y as [->|Y]; auto.
      apply DT; [now left|now right|]. apply FL in Y. apply FK in X. lia. }
    subst y. f_equal. apply IH; auto.
    + intros l. split; intros I; assert (J : In l (x :: L) <-> In l (x :: K)) by apply EQ.
      * destruct J as [J _]. destruct J as [->|J]; auto; [now right|contradiction].
      * destruct J as [_ J]. destruct J as [->|J]; auto; [now right|contradiction].
    + intros k l A B. apply DT; now right.
Qed.

(** ** Claims *)
Lemma L_C68_split_by_target cf tops lops st d v :
  let SL := split_links cf tops lops in
  unit_env cf tops lops -> s_hist cf tops lops st d -> linked SL st v ->
  exists L, by_target L /\ NoDup L /\ (forall i s t, In (mkLink i s t) L <-> is_link SL st i s t /\ s = v) /\
    forall H (h : rhandler H) x, s_each cf h [c_any cf; v; c_any cf] st x = Val (run_handler h L x).
Proof.
  intros SL ENV HH LV. sopen a K D. pose proof (f_cf _ _ _ ENV) as CF. pose proof (f_ok _ _ _ ENV) as OK.
  apply (ob_linked cf _ _ _ OK _ _ _ K) in LV. destruct (a_map a v) as [p|] eqn:EV; [|congruence].
  pose proof (proj1 K) as SI. destruct SI as (R & W & VS).
  destruct (s_is_sorted cf st a v p (proj1 K) EV) as (U & U1 & U2 & U3 & U4).
  assert (NA : v <> c_any cf). { intros ->. rewrite (any_none cf CF st a (proj1 K)) in EV. discriminate. }
  exists (map (link_of (s_data st)) U). split; [exact U3|]. split; [now apply map_link_nodup|]. split.
  - intros i s t. subst SL. rewrite (ob_link cf _ _ _ OK _ _ _ _ _ K), in_map_iff. split.
    + intros (j & E & J). apply U2 in J as (t' & J). rewrite (link_of_map cf st a (proj1 K) _ _ _ J) in E.
      injection E as <- <- <-. auto.
    + intros (E & ->). exists i. split; [now apply (link_of_map cf st a (proj1 K))|]. apply U2. eauto.
  - intros H h x. rewrite <- U4. unfold s_each. rewrite (ok_ipart _ CF), (ok_spart _ CF), (ok_tpart _ CF), qget_0, qget_1, qget_2.
    cbn [obind]. unfold s_each3. rewrite !(s_is_virtual_ok _ _ _ _ _ _ R (all_placed_tpl a VS)). cbn [obind].
    rewrite N.eqb_refl. destruct (N.eqb_spec v (c_any cf)); [congruence|]. cbn [andb].
    unfold isvirt. destruct (N.eqb_spec v 0) as [->|]; [apply (awf_some _ _ _ W) in EV; lia|]. now rewrite EV.
Qed.

(** In a query [[any; v]] the links from v come first and in that order. *)
Lemma L_C68_split_either cf tops lops st d v :
  let SL := split_links cf tops lops in
  unit_env cf tops lops -> s_hist cf tops lops st d -> linked SL st v ->
  exists L M, by_target L /\ NoDup L /\ NoDup M /\
    (forall i s t, In (mkLink i s t) L <-> is_link SL st i s t /\ s = v) /\
    (forall i s t, In (mkLink i s t) M <-> is_link SL st i s t /\ t = v) /\
    forall H (h : rhandler H) x, s_each cf h [c_any cf; v] st x = Val (run_handler h (L ++ M) x).
Proof.
  intros SL ENV HH LV. destruct (L_C68_split_by_target cf tops lops st d v ENV HH LV) as (L & L1 & L2 & L3 & L4).
  sopen a K D. pose proof (f_cf _ _ _ ENV) as CF. pose proof (f_ok _ _ _ ENV) as OK.
  apply (ob_linked cf _ _ _ OK _ _ _ K) in LV. destruct (a_map a v) as [p|] eqn:EV; [|congruence].
  pose proof (lo_wf _ _ _ _ OK _ _ K) as W. pose proof (awf_some _ _ _ W EV) as [VR _].
  assert (NA : v <> c_any cf). { intros ->. rewrite (any_none cf CF st a (proj1 K)) in EV. discriminate. }
  destruct (s_each3_ok cf CF st a (proj1 K) (c_any cf) (c_any cf) v) as (M & VO & E).
  { cbn [each_q]. intros _. pose proof (any0 cf CF). split; intros; lia. }
  unfold visits_ok, is_search, is_all, is_either, avisits in VO. rewrite N.eqb_refl in VO.
  destruct (N.eqb_spec v (c_any cf)); [congruence|]. cbn [andb negb] in VO. destruct VO as [PM _]. destruct (N.eqb_spec v 0); [lia|].
  exists L, M. split; [exact L1|]. split; [exact L2|]. split; [|split; [exact L3|split]].
  - eapply Permutation_NoDup; [symmetry; exact PM|]. apply NoDup_filter, nodup_alinks.
  - intros i s t. subst SL. rewrite (ob_link cf _ _ _ OK _ _ _ _ _ K), <- (in_alinks _ _ _ _ W).
    split.
    + intros X. apply (Permutation_in _ PM) in X. apply filter_In in X as [X Y]. cbn in Y. apply N.eqb_eq in Y. auto.
    + intros [X ->]. apply (Permutation_in _ (Permutation_sym PM)). apply filter_In. split; auto. cbn. apply N.eqb_refl.
  - intros H h x. specialize (L4 H h x). unfold s_each in *.
    rewrite (ok_ipart _ CF), (ok_spart _ CF), (ok_tpart _ CF), qget_0, qget_1, qget_2 in L4. cbn [obind] in L4.
    rewrite (ok_ipart _ CF), qget_0. cbn [obind]. rewrite N.eqb_refl. destruct (N.eqb_spec v (c_any cf)); [congruence|].
    rewrite L4. cbn [obind]. rewrite run_handler_app. destruct (run_handler h L x) as [x1 []]; auto.
Qed.

(** The links decide the order: two stores that hold the same links, no two of them from v
    to the same target, show the links from v in the same order, whatever was called before
    and whichever trees are used. *)
Lemma L_C68_split_determined cf tops lops tops2 lops2 st d st2 d2 v :
  let SL := split_links cf tops lops in let SL2 := split_links cf tops2 lops2 in
  unit_env cf tops lops -> unit_env cf tops2 lops2 -> s_hist cf tops lops st d -> s_hist cf tops2 lops2 st2 d2 ->
  agree SL st SL2 st2 -> linked SL st v ->
  (forall i j t, is_link SL st i v t -> is_link SL st j v t -> i = j) ->
  forall H (h : rhandler H) x,
    s_each cf h [c_any cf; v; c_any cf] st x = s_each cf h [c_any cf; v; c_any cf] st2 x.
Proof.
  intros SL SL2 ENV ENV2 HH HH2 AG LV DT H h x.
  assert (LK : forall i s t, is_link SL st i s t <-> is_link SL2 st2 i s t).
  { intros i s t. unfold is_link. now rewrite AG. }
  assert (LV2 : linked SL2 st2 v). { destruct LV as (s & t & LV). exists s, t. now apply LK. }
  destruct (L_C68_split_by_target cf tops lops st d v ENV HH LV) as (L & L1 & L2 & L3 & L4).
  destruct (L_C68_split_by_target cf tops2 lops2 st2 d2 v ENV2 HH2 LV2) as (M & M1 & M2 & M3 & M4).
  rewrite L4, M4. replace M with L; auto. apply by_target_det; auto.
  - intros [i s t]. rewrite L3, M3. fold SL SL2. now rewrite LK.
  - intros [i s t] [j s' t'] A B E. cbn in E. subst t'. apply L3 in A as [A ->]. apply L3 in B as [B ->].
    now rewrite (DT _ _ _ A B).
Qed.

(** A query for everything shows the same in any two stores with the same links, also of
    different kinds. *)
Lemma ascending_det (L K : list link) : StronglySorted (fun k l => l_index k < l_index l) L ->
  StronglySorted (fun k l => l_index k < l_index l) K -> (forall l, In l L <-> In l K) -> L = K.
Proof.
  revert K. induction L as [|x L IH]; intros K SL SK EQ.
  - destruct K as [|y K]; auto. exfalso. apply (EQ y). now left.
  - destruct K as [|y K]; [exfalso; apply (EQ x); now left|].
    inversion SL as [|? ? SL' FL]; subst. inversion SK as [|? ? SK' FK]; subst. rewrite Forall_forall in FL, FK.
    assert (XY : x = y).
    { assert (X : In x (y :: K)) by (apply EQ; now left). assert (Y : In y (x :: L)) by (apply EQ; now left).
      destruct X as [->|X]; auto. destruct Y as [->|Y]; auto. apply FL in Y. apply FK in X. lia. }
    subst y. f_equal. apply IH; auto.
    intros l. specialize (EQ l). cbn [In] in EQ. split; intros I.
    + destruct (proj1 EQ (or_intror I)) as [<-|J]; auto. apply FL in I. lia.
    + destruct (proj2 EQ (or_intror I)) as [<-|J]; auto. apply FK in I. lia.
Qed.
Lemma L_C68_everything cf tops lops tops2 lops2 st d st2 d2 :
  let U := unit_links cf tops lops in let SL := split_links cf tops2 lops2 in
  unit_env cf tops lops -> unit_env cf tops2 lops2 -> u_hist cf tops lops st d -> s_hist cf tops2 lops2 st2 d2 ->
  agree U st SL st2 ->
  forall q, q = [] \/ q = [c_any cf] \/ (q = [c_any cf; c_any cf] /\ 2 * c_iend cf <= c_tmax cf) \/ q = [c_any cf; c_any cf; c_any cf] ->
  forall H (h : rhandler H) x, u_each cf h q st x = s_each cf h q st2 x.
Proof.
  intros U SL ENV ENV2 HH HH2 AG q Q H h x.
  destruct (L_C02_count_and_each_all cf tops lops st d q ENV HH Q) as (L & [L1 L2] & _ & L3).
  destruct (L_C25_count_and_each_all cf tops2 lops2 st2 d2 q ENV2 HH2) as (M & [M1 M2] & _ & M3); [tauto|].
  rewrite L3, M3. replace M with L; auto. apply ascending_det; auto.
  intros [i s t]. rewrite L2, M2. unfold is_link. fold U SL. now rewrite AG.
Qed.

(** find and the iterators follow: the first link found from v has the lowest target. *)
Lemma L_C68_split_lowest cf tops lops st d v :
  let SL := split_links cf tops lops in
  unit_env cf tops lops -> s_hist cf tops lops st d -> linked SL st v ->
  exists o, d_find SL st [c_any cf; v; c_any cf] = Val o /\
  match o with
  | None => forall i t, ~ is_link SL st i v t
  | Some l => is_link SL st (l_index l) v (l_target l) /\ forall i t, is_link SL st i v t -> l_target l <= t
  end.
Proof.
  intros SL ENV HH LV. destruct (L_C68_split_by_target cf tops lops st d v ENV HH LV) as (L & L1 & L2 & L3 & L4).
  exists (hd_error L). split.
  - unfold d_find, d_each_by. cbn [li_each SL split_links]. rewrite L4, run_radapt. cbn [obind]. destruct L; reflexivity.
  - destruct L as [|[i s t] L]; cbn [hd_error].
    + intros i t E. apply (L3 i v t). auto.
    + cbn [l_index l_target]. split; [destruct (proj1 (L3 i s t)) as [X ->]; [now left|exact X]|].
      intros j u E. assert (X : In (mkLink j v u) (mkLink i s t :: L)) by (apply L3; auto).
      destruct X as [X|X]; [injection X as <- <- <-; lia|].
      inversion L1 as [|? ? _ F]; subst. rewrite Forall_forall in F. apply F in X. exact X.
Qed.

(** ** Where no order can be relied on *)
Definition exO : list cmd := [Cr; Cr; Cr; Up 1 1 1; Up 2 1 3; Up 3 1 2].
Definition exO2 : list cmd := exO ++ [Up 2 3 3; Up 2 1 3].
Definition exT : list cmd := [Cr; Cr; Cr; Up 1 1 1; Up 2 3 1; Up 3 2 1].
Definition exT2 : list cmd := exT ++ [Up 2 3 3; Up 2 3 1].
Lemma agree_top {S1 S2} cf sp1 sp2 (I1 : LinksI S1) (I2 : LinksI S2) R1 R2 st1 st2 a b :
  links_ok cf sp1 I1 R1 -> links_ok cf sp2 I2 R2 -> R1 st1 a -> R2 st2 b -> alinks a = alinks b -> agree I1 st1 I2 st2.
Proof.
  intros OK1 OK2 K1 K2 E i. rewrite (lo_get _ _ _ _ OK1 _ _ i K1), (lo_get _ _ _ _ OK2 _ _ i K2).
  pose proof (lo_wf _ _ _ _ OK1 _ _ K1) as W1. pose proof (lo_wf _ _ _ _ OK2 _ _ K2) as W2.
  f_equal. destruct (a_map a i) as [[s t]|] eqn:A.
  - apply (in_alinks _ _ _ _ W1) in A. rewrite E in A. apply (in_alinks _ _ _ _ W2) in A. now rewrite A.
  - destruct (a_map b i) as [[s t]|] eqn:B; auto.
    apply (in_alinks _ _ _ _ W2) in B. rewrite <- E in B. apply (in_alinks _ _ _ _ W1) in B. congruence.
Qed.

(** The store with one memory keeps no such order: the same links, other visits. *)
Lemma L_C68_unit_source_refuted : exists st d st2 d2 L M,
  u_hist ex_cf ref_tree_ops ref_list_ops st d /\ u_hist ex_cf ref_tree_ops ref_list_ops st2 d2 /\
  distinct_pairs ex_U st /\ agree ex_U st ex_U st2 /\
  d_each_iter ex_U st [c_any ex_cf; 1; c_any ex_cf] = Val L /\ d_each_iter ex_U st2 [c_any ex_cf; 1; c_any ex_cf] = Val M /\
  L <> M /\ ~ by_target L.
Proof.
  destruct (ex_reach exO) as (d & HH & K); [vm_compute; reflexivity..|].
  destruct (ex_reach exO2) as (d2 & HH2 & K2); [vm_compute; reflexivity..|].
  exists (ex_st exO), d, (ex_st exO2), d2, [mkLink 1 1 1; mkLink 2 1 3; mkLink 3 1 2], [mkLink 1 1 1; mkLink 3 1 2; mkLink 2 1 3].
  split; [exact HH|]. split; [exact HH2|]. split; [apply ex_distinct; vm_compute; reflexivity|].
  split; [|split; [vm_compute; reflexivity|split; [vm_compute; reflexivity|split; [discriminate|]]]].
  - apply (agree_top ex_cf _ _ _ _ _ _ _ _ _ _ (e_ok _ _ _ ex_env) (e_ok _ _ _ ex_env) K K2). vm_compute. reflexivity.
  - intros X. inversion X as [|? ? X1 _]; subst. inversion X1 as [|? ? _ X2]; subst. inversion X2 as [|? ? X3 _]; subst.
    cbn in X3. lia.
Qed.
Lemma L_C68_unit_target_refuted : exists st d st2 d2 L M,
  u_hist ex_cf ref_tree_ops ref_list_ops st d /\ u_hist ex_cf ref_tree_ops ref_list_ops st2 d2 /\
  distinct_pairs ex_U st /\ agree ex_U st ex_U st2 /\
  d_each_iter ex_U st [c_any ex_cf; c_any ex_cf; 1] = Val L /\ d_each_iter ex_U st2 [c_any ex_cf; c_any ex_cf; 1] = Val M /\ L <> M.
Proof.
  destruct (ex_reach exT) as (d & HH & K); [vm_compute; reflexivity..|].
  destruct (ex_reach exT2) as (d2 & HH2 & K2); [vm_compute; reflexivity..|].
  exists (ex_st exT), d, (ex_st exT2), d2, [mkLink 1 1 1; mkLink 2 3 1; mkLink 3 2 1], [mkLink 1 1 1; mkLink 3 2 1; mkLink 2 3 1].
  split; [exact HH|]. split; [exact HH2|]. split; [apply ex_distinct; vm_compute; reflexivity|].
  split; [|split; [vm_compute; reflexivity|split; [vm_compute; reflexivity|discriminate]]].
  apply (agree_top ex_cf _ _ _ _ _ _ _ _ _ _ (e_ok _ _ _ ex_env) (e_ok _ _ _ ex_env) K K2). vm_compute. reflexivity.
Qed.
(** Nor does the store with two memories for the links to a target. *)
Lemma L_C68_split_target_refuted : exists st d st2 d2 L M,
  s_hist ex_cf ref_tree_ops ref_list_ops st d /\ s_hist ex_cf ref_tree_ops ref_list_ops st2 d2 /\
  distinct_pairs ex_S st /\ agree ex_S st ex_S st2 /\ linked ex_S st 1 /\
  d_each_iter ex_S st [c_any ex_cf; c_any ex_cf; 1] = Val L /\ d_each_iter ex_S st2 [c_any ex_cf; c_any ex_cf; 1] = Val M /\
  L <> M.
Proof.
  destruct (ex_sreach exT) as (d & HH & K); [vm_compute; reflexivity..|].
  destruct (ex_sreach exT2) as (d2 & HH2 & K2); [vm_compute; reflexivity..|].
  exists (ex_sst exT), d, (ex_sst exT2), d2, [mkLink 1 1 1; mkLink 2 3 1; mkLink 3 2 1], [mkLink 1 1 1; mkLink 3 2 1; mkLink 2 3 1].
  split; [exact HH|]. split; [exact HH2|]. split; [apply ex_sdistinct; vm_compute; reflexivity|].
  split; [|split; [exists 1, 1; unfold is_link; vm_compute; reflexivity|split; [vm_compute; reflexivity|split; [vm_compute; reflexivity|discriminate]]]].
  apply (agree_top ex_cf _ _ _ _ _ _ _ _ _ _ (f_ok _ _ _ ex_env) (f_ok _ _ _ ex_env) K K2). vm_compute. reflexivity.
Qed.
(** Nor for the links from a source that is not a link. *)
Definition exV : list cmd := [Cr; Cr; Cr; Up 1 9 2; Up 2 9 3; Up 3 9 1].
Definition exV2 : list cmd := exV ++ [Up 1 2 2; Up 1 9 2].
Lemma L_C68_split_outer_refuted : exists st d st2 d2 L M,
  s_hist ex_cf ref_tree_ops ref_list_ops st d /\ s_hist ex_cf ref_tree_ops ref_list_ops st2 d2 /\
  distinct_pairs ex_S st /\ agree ex_S st ex_S st2 /\ no_link ex_S st 9 /\
  d_each_iter ex_S st [c_any ex_cf; 9; c_any ex_cf] = Val L /\ d_each_iter ex_S st2 [c_any ex_cf; 9; c_any ex_cf] = Val M /\
  L <> M.
Proof.
  destruct (ex_sreach exV) as (d & HH & K); [vm_compute; reflexivity..|].
  destruct (ex_sreach exV2) as (d2 & HH2 & K2); [vm_compute; reflexivity..|].
  exists (ex_sst exV), d, (ex_sst exV2), d2, [mkLink 1 9 2; mkLink 3 9 1; mkLink 2 9 3], [mkLink 3 9 1; mkLink 2 9 3; mkLink 1 9 2].
  split; [exact HH|]. split; [exact HH2|]. split; [apply ex_sdistinct; vm_compute; reflexivity|].
  split; [|split; [unfold no_link; vm_compute; reflexivity|split; [vm_compute; reflexivity|split; [vm_compute; reflexivity|discriminate]]]].
  apply (agree_top ex_cf _ _ _ _ _ _ _ _ _ _ (f_ok _ _ _ ex_env) (f_ok _ _ _ ex_env) K K2). vm_compute. reflexivity.
Qed.

(** The hypotheses above are met: the two histories show the links of 1 in the same order. *)
Lemma L_C68_nonvacuous : exists st d st2 d2 us ud,
  s_hist ex_cf ref_tree_ops ref_list_ops st d /\ s_hist ex_cf ref_tree_ops ref_list_ops st2 d2 /\ u_hist ex_cf ref_tree_ops ref_list_ops us ud /\
  agree ex_S st ex_S st2 /\ agree ex_U us ex_S st2 /\ linked ex_S st 1 /\ distinct_pairs ex_S st /\
  d_each_iter ex_S st [c_any ex_cf; 1; c_any ex_cf] = Val [mkLink 1 1 1; mkLink 3 1 2; mkLink 2 1 3] /\
  d_each_iter ex_S st2 [c_any ex_cf; 1; c_any ex_cf] = Val [mkLink 1 1 1; mkLink 3 1 2; mkLink 2 1 3] /\
  d_each_iter ex_S st2 [c_any ex_cf; 1] = Val [mkLink 1 1 1; mkLink 3 1 2; mkLink 2 1 3; mkLink 1 1 1] /\
  d_each_iter ex_U us [] = Val [mkLink 1 1 1; mkLink 2 1 3; mkLink 3 1 2].
Proof.
  destruct (ex_sreach exO) as (d & HH & K); [vm_compute; reflexivity..|].
  destruct (ex_sreach exO2) as (d2 & HH2 & K2); [vm_compute; reflexivity..|].
  destruct (ex_reach exO2) as (ud & UH & UK); [vm_compute; reflexivity..|].
  exists (ex_sst exO), d, (ex_sst exO2), d2, (ex_st exO2), ud.
  split; [exact HH|]. split; [exact HH2|]. split; [exact UH|].
  split; [apply (agree_top ex_cf _ _ _ _ _ _ _ _ _ _ (f_ok _ _ _ ex_env) (f_ok _ _ _ ex_env) K K2); vm_compute; reflexivity|].
  split; [apply (agree_top ex_cf _ _ _ _ _ _ _ _ _ _ (e_ok _ _ _ ex_env) (f_ok _ _ _ ex_env) UK K2); vm_compute; reflexivity|].
  split; [exists 1, 1; unfold is_link; vm_compute; reflexivity|]. split; [apply ex_sdistinct; vm_compute; reflexivity|].
  do 3 (split; [vm_compute; reflexivity|]). vm_compute. reflexivity.
Qed.
