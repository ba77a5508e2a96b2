(** Observable consequences of following the abstract store, for implementations whose
    only obligation on the client is not to detach links while duplicate pairs exist. *)
From Coq Require Import NArith List Bool Lia Permutation Sorted.
From Verif Require Import Base Spec Iface Doublets DoubletsOK Obs Hist.
Import ListNotations.
Open Scope N_scope.

Section Claims.
  Variable cf : cfg.
  Hypothesis CF : cfg_ok cf.
  Variable sp : store_spec.
  Context {S : Type}.
  Variable I : LinksI S.
  Variable R : S -> astate -> Prop.
  Hypothesis IOK : links_ok cf sp I R.
  Hypothesis SPU : forall a i s t, detachable a i -> sp_update sp a i s t.
  Hypothesis SPD : forall a i, detachable a i -> sp_delete sp a i.
  Hypothesis SPC : forall st a, R st a -> sp_create sp a.
  Hypothesis SPQ : forall st a q, R st a -> (length q <= 3)%nat ->
    (length q = 2%nat -> 2 * c_iend cf <= c_tmax cf) -> sp_query sp a q.

  Notation any := (c_any cf).

  (** ** Translation between observations and the abstract state *)
  Lemma ob_link st a i s t : R st a -> (is_link I st i s t <-> a_map a i = Some (s, t)).
  Proof.
    intros HR. unfold is_link. rewrite (lo_get _ _ _ _ IOK _ _ _ HR).
    destruct (a_map a i) as [[s0 t0]|]; simpl; split; congruence.
  Qed.
  Lemma ob_none st a i : R st a -> (no_link I st i <-> a_map a i = None).
  Proof.
    intros HR. unfold no_link. rewrite (lo_get _ _ _ _ IOK _ _ _ HR).
    destruct (a_map a i) as [[s0 t0]|]; simpl; split; congruence.
  Qed.
  Lemma ob_linked st a i : R st a -> (linked I st i <-> a_map a i <> None).
  Proof.
    intros HR. unfold linked. setoid_rewrite (ob_link _ _ _ _ _ HR).
    destruct (a_map a i) as [[s0 t0]|]; split; try congruence; [eauto|]. intros (? & ? & K); congruence.
  Qed.
  Lemma ob_distinct st a : R st a -> (distinct_pairs I st <-> adistinct a).
  Proof.
    intros HR. unfold distinct_pairs. setoid_rewrite (ob_link _ _ _ _ _ HR). unfold adistinct. split.
    - intros K i j [s t]. apply K.
    - intros K i j s t. apply K.
  Qed.
  Lemma ob_sep st a i : R st a -> (separable I st i <-> detachable a i).
  Proof.
    intros HR. unfold separable, detachable, alone. rewrite (ob_link _ _ _ _ _ HR).
    setoid_rewrite (ob_link _ _ _ _ _ HR). split; (intros [E|D]; [now left|right]).
    - intros j [s t]. apply D.
    - intros j s t. apply D.
  Qed.
  Lemma ob_get st st' a a' : R st a -> R st' a' ->
    forall j, (li_get I st' j = li_get I st j <-> a_map a' j = a_map a j).
  Proof.
    intros HR HR' j. rewrite (lo_get _ _ _ _ IOK _ _ _ HR), (lo_get _ _ _ _ IOK _ _ _ HR').
    destruct (a_map a j) as [[s t]|], (a_map a' j) as [[s' t']|]; simpl; split; congruence.
  Qed.
  Lemma ob_frame st st' a a' i v : R st a -> R st' a' -> a_map a' = upd (a_map a) i v -> frame I st st' i.
  Proof. intros HR HR' E j J. apply (ob_get _ _ _ _ HR HR'). rewrite E. now apply upd_other. Qed.

  Lemma ob_top st a : R st a -> forall i, linked I st i -> 1 <= i <= a_top a.
  Proof.
    intros HR i K. apply (ob_linked _ _ _ HR) in K. now apply (wf_dom _ (lo_wf _ _ _ _ IOK _ _ HR)) in K.
  Qed.

  Lemma ob_hole st a k : R st a -> (hole I st k <-> In k (a_free a)).
  Proof.
    intros HR. pose proof (lo_wf _ _ _ _ IOK _ _ HR) as W. unfold hole. rewrite (ob_none _ _ _ HR). split.
    - intros (K1 & K2 & j & K3 & K4). apply (ob_top _ _ HR) in K4.
      destruct (in_dec N.eq_dec k (a_free a)); auto. exfalso.
      apply (proj2 (wf_dom _ W k)); auto. split; auto. lia.
    - intros K. pose proof (wf_free _ W _ K). split; [lia|]. split; [apply awf_none; auto|].
      exists (a_top a). destruct (wf_top _ W) as [T|T]; [lia|]. split; [|now apply (ob_linked _ _ _ HR)].
      destruct (N.eq_dec k (a_top a)) as [->|]; [|lia]. exfalso. apply T. apply awf_none; auto.
  Qed.

  Lemma sorted_range1_gen (m : N -> option (N * N)) n :
    StronglySorted (fun k l => l_index k < l_index l)
      (flat_map (fun i => match m i with Some (s, t) => [mkLink i s t] | None => [] end) (range1 (N.of_nat n))) /\
    (forall l, In l (flat_map (fun i => match m i with Some (s, t) => [mkLink i s t] | None => [] end) (range1 (N.of_nat n))) ->
       l_index l <= N.of_nat n).
  Proof.
    assert (B : forall l i, In l (match m i with Some (s, t) => [mkLink i s t] | None => [] end) -> l_index l = i).
    { intros l i. destruct (m i) as [[s t]|]; simpl; [|tauto]. intros [<-|[]]. reflexivity. }
    assert (B2 : forall n l, In l (flat_map (fun i => match m i with Some (s, t) => [mkLink i s t] | None => [] end) (range1 (N.of_nat n))) ->
       l_index l <= N.of_nat n).
    { intros k l K. apply in_flat_map in K as (i & K1 & K2). apply B in K2. apply in_range1 in K1. lia. }
    split; [|apply B2]. induction n as [|n IH]; [constructor|].
    replace (range1 (N.of_nat (Datatypes.S n))) with (range1 (N.of_nat n) ++ [N.of_nat (Datatypes.S n)]).
    2: { rewrite Nnat.Nat2N.inj_succ, <- N.add_1_r. now rewrite range1_succ. }
    rewrite flat_map_app. cbn [flat_map]. rewrite app_nil_r.
    assert (G : forall L x, StronglySorted (fun k l => l_index k < l_index l) L ->
      (forall l, In l L -> l_index l < l_index x) -> StronglySorted (fun k l => l_index k < l_index l) (L ++ [x])).
    { clear. induction L as [|y L IH]; intros x SS K; cbn [app]; [repeat constructor|].
      inversion SS as [|? ? S1 S2]; subst. constructor.
      - apply IH; auto. intros l Hl. apply K. now right.
      - apply Forall_app. split; auto. constructor; auto. apply K. now left. }
    destruct (m (N.of_nat (Datatypes.S n))) as [[s t]|]; [|now rewrite app_nil_r].
    apply G; auto. intros l Hl. apply B2 in Hl. cbn [l_index]. lia.
  Qed.

  Lemma ob_all st a : R st a -> all_links I st (alinks a).
  Proof.
    intros HR. pose proof (lo_wf _ _ _ _ IOK _ _ HR) as W. split.
    - unfold alinks. rewrite <- (Nnat.N2Nat.id (a_top a)). apply sorted_range1_gen.
    - intros i s t. rewrite (ob_link _ _ _ _ _ HR). apply (in_alinks a i s t W).
  Qed.

  (** ** Reads *)
  Lemma any0 : any <> 0.
  Proof. pose proof (ok_iend _ CF). lia. Qed.

  Lemma g_visits st a q : R st a -> (length q <= 3)%nat -> (length q = 2%nat -> 2 * c_iend cf <= c_tmax cf) ->
    exists L, visits I st q L /\ visits_ok any q a L.
  Proof. intros HR LQ DB. eapply visits_ex; eauto. Qed.

  Lemma g_all st a q : R st a -> (length q = 2%nat -> 2 * c_iend cf <= c_tmax cf) -> is_all any q = true ->
    exists L, all_links I st L /\ visits I st q L.
  Proof.
    intros HR DB A. assert (LQ : (length q <= 3)%nat).
    { destruct q as [|? [|? [|? [|? ?]]]]; cbn in *; lia || discriminate. }
    destruct (g_visits _ _ _ HR LQ DB) as (L & V & VO). exists L. split; auto.
    unfold visits_ok in VO.
    assert (is_search any q = false) as SF.
    { destruct q as [|? [|? [|? [|? ?]]]]; cbn in *; auto.
      apply andb_true_iff in A as [A ->]. apply andb_true_iff in A as [-> ->]. reflexivity. }
    rewrite SF in VO. destruct VO as (_ & VO & _). rewrite (VO A). now apply ob_all.
  Qed.

  Lemma in_avisits a q l : awf a -> (length q <= 3)%nat -> ~ null_query any q ->
    (In l (avisits any q a) <-> a_map a (l_index l) = Some (l_source l, l_target l) /\ query_match any q l).
  Proof.
    intros W LQ NQ. pose proof any0 as A0.
    assert (IA : forall l, In l (alinks a) <-> a_map a (l_index l) = Some (l_source l, l_target l)).
    { intros [i s t]. cbn. apply in_alinks; auto. }
    destruct q as [|i [|s [|t [|? ?]]]]; cbn [avisits query_match]; unfold part_match; cbn [null_query] in NQ.
    - rewrite IA. tauto.
    - destruct (N.eqb_spec i any); [rewrite IA; tauto|]. rewrite filter_In, N.eqb_eq, IA.
      split; intros [K1 K2]; split; auto. destruct K2; congruence.
    - destruct (N.eqb_spec i any) as [->|NI].
      + destruct (N.eqb_spec s any) as [->|NS]; [rewrite IA; tauto|].
        destruct (N.eqb_spec s 0) as [->|S0]; [exfalso; apply NQ; auto|].
        rewrite in_app_iff, !filter_In, !N.eqb_eq, IA. intuition congruence.
      + rewrite filter_In, IA, andb_true_iff, !orb_true_iff, !N.eqb_eq. intuition congruence.
    - destruct (N.eqb_spec i any) as [->|NI].
      + destruct (N.eqb_spec s any) as [->|NS], (N.eqb_spec t any) as [->|NT]; cbn [andb].
        * rewrite IA. tauto.
        * destruct (N.eqb_spec t 0) as [->|T0]; [exfalso; apply NQ; auto|].
          rewrite filter_In, N.eqb_eq, IA. intuition congruence.
        * destruct (N.eqb_spec s 0) as [->|S0]; [exfalso; apply NQ; auto|].
          rewrite filter_In, N.eqb_eq, IA. intuition congruence.
        * destruct (N.eqb_spec s 0) as [->|S0]; [exfalso; apply NQ; auto|].
          rewrite filter_In, andb_true_iff, !N.eqb_eq, IA. intuition congruence.
      + rewrite filter_In, IA, !andb_true_iff, !orb_true_iff, !N.eqb_eq. intuition congruence.
    - cbn [length] in LQ. lia.
  Qed.

  Lemma nodup_avisits a q : ~ end_query any q -> NoDup (avisits any q a).
  Proof.
    intros NE. pose proof (nodup_alinks a) as ND.
    destruct q as [|i [|s [|t [|? ?]]]]; cbn [avisits]; cbn [end_query] in NE; auto using NoDup_filter, NoDup_nil.
    - destruct (i =? any); auto using NoDup_filter.
    - destruct (N.eqb_spec i any); [|auto using NoDup_filter].
      destruct (N.eqb_spec s any); [auto|]. tauto.
    - destruct (i =? any), (s =? any), (t =? any), (s =? 0), (t =? 0); cbn [andb];
        auto using NoDup_filter, NoDup_nil.
  Qed.

  Lemma g_match st a q : R st a -> (length q <= 3)%nat -> (length q = 2%nat -> 2 * c_iend cf <= c_tmax cf) -> ~ null_query any q -> ~ end_query any q ->
    (pair_query any q -> one_match any I st q) ->
    exists L, visits I st q L /\ NoDup L /\
      forall l, In l L <-> li_get I st (l_index l) = Val (Some l) /\ query_match any q l.
  Proof.
    intros HR LQ DB NQ EQ DP. pose proof (lo_wf _ _ _ _ IOK _ _ HR) as W.
    destruct (g_visits _ _ _ HR LQ DB) as (L & V & VO). exists L. split; auto.
    assert (OL : forall l, li_get I st (l_index l) = Val (Some l) <-> a_map a (l_index l) = Some (l_source l, l_target l)).
    { intros [i s t]. apply (ob_link _ _ _ _ _ HR). }
    setoid_rewrite OL. setoid_rewrite <- (in_avisits a q _ W LQ NQ).
    unfold visits_ok in VO. destruct (is_search any q) eqn:SQ.
    - destruct q as [|i [|s [|t [|? ?]]]]; try discriminate. cbn [is_search] in SQ.
      apply andb_true_iff in SQ as [SQ S3]. apply andb_true_iff in SQ as [S1 S2].
      apply N.eqb_eq in S1. apply negb_true_iff, N.eqb_neq in S2, S3. subst i.
      destruct VO as [[-> VO]|(l & -> & VO)].
      + rewrite VO. split; [constructor|]. intros l. simpl. tauto.
      + split; [constructor; [simpl; tauto|constructor]|].
        assert (S0 : s <> 0). { intros ->. apply NQ. cbn. auto. }
        intros k. simpl. split; [intros [<-|[]]; auto|]. intros K. left.
        apply (in_avisits a _ _ W LQ NQ) in VO as [V1 V2], K as [K1 K2].
        apply DP; [cbn; auto|now apply OL|auto|now apply OL|auto].
    - destruct VO as (P & _). split.
      + eapply Permutation_NoDup; [symmetry; exact P|]. now apply nodup_avisits.
      + intros l. split; apply Permutation_in; auto. now symmetry.
  Qed.

  Lemma g_pair st a s t L : R st a -> s <> 0 -> s <> any -> t <> any -> visits_ok any [any; s; t] a L ->
    (L = [] /\ forall i, ~ is_link I st i s t) \/ (exists i, L = [mkLink i s t] /\ is_link I st i s t).
  Proof.
    intros HR S0 SA TA VO. pose proof (lo_wf _ _ _ _ IOK _ _ HR) as W.
    assert (NQ : ~ null_query any [any; s; t]) by (cbn; tauto).
    assert (IA : forall l, In l (avisits any [any; s; t] a) <->
       a_map a (l_index l) = Some (l_source l, l_target l) /\ l_source l = s /\ l_target l = t).
    { intros l. rewrite (in_avisits a _ l W) by (cbn; auto). cbn. unfold part_match. intuition congruence. }
    unfold visits_ok in VO. cbn [is_search] in VO. rewrite N.eqb_refl in VO.
    destruct (N.eqb_spec s any); [contradiction|]. destruct (N.eqb_spec t any); [contradiction|]. cbn [negb andb] in VO.
    destruct VO as [[-> VO]|([i s' t'] & -> & VO)].
    - left. split; auto. intros i LI. apply (ob_link _ _ _ _ _ HR) in LI.
      assert (IN : In (mkLink i s t) (avisits any [any; s; t] a)) by (apply IA; auto). rewrite VO in IN. destruct IN.
    - right. apply IA in VO as (M & E1 & E2). cbn in M, E1, E2. subst. exists i. split; auto.
      now apply (ob_link _ _ _ _ _ HR).
  Qed.

  Lemma g_end st a v : R st a -> 2 * c_iend cf <= c_tmax cf -> v <> 0 -> v <> any ->
    exists L1 L2, visits I st [any; v] (L1 ++ L2) /\ NoDup L1 /\ NoDup L2 /\
      (forall l, In l L1 <-> li_get I st (l_index l) = Val (Some l) /\ l_source l = v) /\
      (forall l, In l L2 <-> li_get I st (l_index l) = Val (Some l) /\ l_target l = v).
  Proof.
    intros HR DB V0 VA. pose proof (lo_wf _ _ _ _ IOK _ _ HR) as W.
    destruct (g_visits _ _ [any; v] HR) as (L & V & VO); [cbn; lia|auto|].
    unfold visits_ok in VO. cbn [is_search] in VO. destruct VO as (_ & _ & VO).
    destruct (VO v) as (L1 & L2 & -> & P1 & P2); auto.
    { cbn. rewrite N.eqb_refl. destruct (N.eqb_spec v any); [congruence|reflexivity]. }
    exists L1, L2. split; auto.
    assert (OL : forall l, li_get I st (l_index l) = Val (Some l) <-> In l (alinks a)).
    { intros [i s t]. cbn. unfold is_link. rewrite (in_alinks a i s t W). apply (ob_link _ _ _ _ _ HR). }
    pose proof (nodup_alinks a) as ND.
    assert (GEN : forall LL f, Permutation LL (filter (fun l => f l =? v) (alinks a)) ->
      NoDup LL /\ forall l, In l LL <-> li_get I st (l_index l) = Val (Some l) /\ f l = v).
    { intros LL f P. split.
      - eapply Permutation_NoDup; [symmetry; exact P|]. now apply NoDup_filter.
      - intros l. rewrite OL, <- N.eqb_eq. split.
        + intros Hl. apply (Permutation_in _ P) in Hl. now apply filter_In in Hl.
        + intros Hl. apply (Permutation_in _ (Permutation_sym P)). now apply filter_In. }
    destruct (GEN _ _ P1), (GEN _ _ P2). auto.
  Qed.

  Lemma g_null st a q : R st a -> (length q = 2%nat -> 2 * c_iend cf <= c_tmax cf) -> null_query any q -> visits I st q [].
  Proof.
    intros HR DB NQ. pose proof any0 as A0.
    assert (LQ : (length q <= 3)%nat).
    { destruct q as [|? [|? [|? [|? ?]]]]; cbn in *; lia || tauto. }
    destruct (g_visits _ _ _ HR LQ DB) as (L & V & VO).
    assert (E : avisits any q a = []).
    { destruct q as [|i [|s [|t [|? ?]]]]; cbn [null_query] in NQ; try tauto; cbn [avisits].
      - destruct NQ as [-> ->]. rewrite N.eqb_refl. destruct (N.eqb_spec 0 any); [congruence|]. reflexivity.
      - destruct NQ as [-> NQ]. rewrite N.eqb_refl. destruct NQ as [->|[-> ->]].
        + destruct (N.eqb_spec 0 any); [congruence|]. reflexivity.
        + rewrite N.eqb_refl. destruct (N.eqb_spec 0 any); [congruence|]. reflexivity. }
    assert (L = []); [|subst; auto].
    unfold visits_ok in VO. rewrite E in VO. destruct (is_search any q).
    - destruct VO as [[-> _]|(l & _ & [])]. reflexivity.
    - destruct VO as [P _]. now apply Permutation_nil, Permutation_sym.
  Qed.

  (** ** Single operations *)
  Lemma g_update st a q ch i s t : R st a -> linked I st i -> separable I st i ->
    qget q 0 = Val i -> qget ch 1 = Val s -> qget ch 2 = Val t ->
    exists st' b, R st' (a_update a i s t) /\
      calls_once (fun H h x => li_update I H h q ch st x) st' b (mkLink i s t) /\
      is_link I st' i s t /\ frame I st st' i.
  Proof.
    intros HR K SEP Q1 Q2 Q3. apply (ob_linked _ _ _ HR) in K. apply (ob_sep _ _ _ HR) in SEP.
    destruct (lo_update _ _ _ _ IOK _ _ _ _ _ _ _ HR Q1 Q2 Q3 K (SPU _ _ s t SEP)) as (st' & b & R' & C).
    exists st', b. split; auto. split; auto. split.
    - apply (ob_link _ _ _ _ _ R'). cbn. apply upd_same.
    - eapply ob_frame; eauto. reflexivity.
  Qed.

  Lemma g_update_none st a q ch i s t : R st a -> no_link I st i ->
    qget q 0 = Val i -> qget ch 1 = Val s -> qget ch 2 = Val t ->
    fails_with (fun H h x => li_update I H h q ch st x) st (NotExists i).
  Proof. intros HR K. apply (ob_none _ _ _ HR) in K. intros. eapply lo_update_none; eauto. Qed.

  Lemma count_R st a : R st a -> li_count I st [] = Val (N.of_nat (length (alinks a))).
  Proof.
    intros HR. destruct (g_visits _ _ [] HR) as (L & V & VO); [cbn; lia|discriminate|].
    unfold visits_ok in VO. cbn in VO. destruct VO as (_ & VO & _). rewrite <- (VO eq_refl). apply V.
  Qed.
  Definition count_known : Prop := forall st a, R st a -> sp_query sp a [].
  Lemma spq_count : count_known.
  Proof. intros st a HR. eapply SPQ; eauto; cbn; try lia; discriminate. Qed.
  Lemma count_R0 : count_known -> forall st a, R st a -> li_count I st [] = Val (N.of_nat (length (alinks a))).
  Proof.
    intros CK st a HR. destruct (lo_query _ _ _ _ IOK _ _ _ HR (CK _ _ HR)) as (L & V & _ & C). rewrite C.
    f_equal. f_equal. destruct V as (P & _). now apply Permutation_length.
  Qed.

  Lemma len_alinks_gen (m m' : N -> option (N * N)) i l : NoDup l -> (forall j, j <> i -> m' j = m j) ->
    m i <> None -> m' i = None ->
    let f m := flat_map (fun i => match m i with Some (s, t) => [mkLink i s t] | None => [] end) in
    length (f m l) = (length (f m' l) + (if in_dec N.eq_dec i l then 1 else 0))%nat.
  Proof.
    intros ND E M M' f. subst f. induction l as [|j l IH]; [reflexivity|].
    inversion ND as [|? ? NI ND']; subst. cbn [flat_map]. rewrite !app_length, IH by auto.
    destruct (N.eq_dec j i) as [->|J].
    - rewrite M'. destruct (m i) as [[s t]|]; [|congruence]. cbn [length].
      destruct (in_dec N.eq_dec i l); [tauto|]. destruct (in_dec N.eq_dec i (i :: l)) as [|K]; [lia|].
      exfalso. apply K. now left.
    - rewrite (E j) by auto. destruct (in_dec N.eq_dec i l), (in_dec N.eq_dec i (j :: l)) as [K|K]; try lia.
      + exfalso. apply K. now right.
      + destruct K; [congruence|contradiction].
  Qed.

  Lemma alinks_ext_top a n : awf a -> a_top a <= n ->
    alinks a = flat_map (fun i => match a_map a i with Some (s, t) => [mkLink i s t] | None => [] end) (range1 n).
  Proof.
    intros W LE. unfold alinks.
    replace n with (a_top a + N.of_nat (N.to_nat (n - a_top a))) by lia.
    set (k := N.to_nat (n - a_top a)). clearbody k. clear LE. induction k as [|k IH]; [now rewrite N.add_0_r|].
    rewrite IH. replace (a_top a + N.of_nat (Datatypes.S k)) with (a_top a + N.of_nat k + 1) by lia.
    rewrite range1_succ, flat_map_app. cbn [flat_map]. rewrite app_nil_r.
    assert (a_map a (a_top a + N.of_nat k + 1) = None) as ->.
    { destruct (a_map a (a_top a + N.of_nat k + 1)) eqn:E; auto. exfalso.
      assert (NN : a_map a (a_top a + N.of_nat k + 1) <> None) by congruence.
      apply (wf_dom _ W) in NN. lia. }
    now rewrite app_nil_r.
  Qed.

  Lemma len_add a a' i : awf a -> awf a' -> (forall j, j <> i -> a_map a' j = a_map a j) ->
    a_map a i = None -> a_map a' i <> None -> length (alinks a') = Datatypes.S (length (alinks a)).
  Proof.
    intros W W' E M M'.
    rewrite (alinks_ext_top a (N.max (a_top a) (a_top a'))) by (auto; lia).
    rewrite (alinks_ext_top a' (N.max (a_top a) (a_top a'))) by (auto; lia).
    pose proof (len_alinks_gen (a_map a') (a_map a) i (range1 (N.max (a_top a) (a_top a')))) as G.
    cbv zeta in G. rewrite G; auto; [|apply nodup_range1|intros; symmetry; auto].
    destruct (in_dec N.eq_dec i (range1 (N.max (a_top a) (a_top a')))) as [|K]; [lia|].
    exfalso. apply K. apply in_range1. apply (wf_dom _ W') in M'. lia.
  Qed.

  Lemma awf_next_iend st a : R st a -> ~ a_full cf a -> 1 <= a_next a <= c_iend cf.
  Proof.
    intros HR NF. pose proof (lo_wf _ _ _ _ IOK _ _ HR) as W. pose proof (lo_iend _ _ _ _ IOK _ _ HR).
    split; [now apply a_next_pos|]. unfold a_next, a_full in *. destruct (a_free a) as [|x fl] eqn:E.
    - destruct (N.le_gt_cases (c_iend cf) (a_top a)); [tauto|lia].
    - pose proof (wf_free _ W x) as K. rewrite E in K. specialize (K (or_introl eq_refl)). lia.
  Qed.

  Lemma ob_full st a : R st a -> (range_full cf I st <-> a_full cf a).
  Proof.
    intros HR. pose proof (lo_wf _ _ _ _ IOK _ _ HR) as W. pose proof (lo_iend _ _ _ _ IOK _ _ HR) as LE.
    unfold range_full, a_full. setoid_rewrite (ob_linked _ _ _ HR). split.
    - intros K. assert (c_iend cf <= a_top a).
      { destruct (N.eq_dec (c_iend cf) 0) as [|NE]; [lia|]. specialize (K (c_iend cf)).
        apply (wf_dom _ W) in K; lia. }
      split; auto. destruct (a_free a) as [|x fl] eqn:E; auto. exfalso.
      pose proof (wf_free _ W x) as F. rewrite E in F. specialize (F (or_introl eq_refl)).
      specialize (K x). apply (wf_dom _ W) in K; [|lia]. apply K. rewrite E. now left.
    - intros [K1 K2] i Hi. apply (wf_dom _ W). rewrite K1. split; [lia|simpl; tauto].
  Qed.

  Lemma ob_creates st a st' : R st a -> ~ a_full cf a -> R st' (a_create a) -> creates cf I st st' (a_next a).
  Proof.
    intros HR F R'. pose proof (lo_wf _ _ _ _ IOK _ _ HR) as W. pose proof (a_create_map a W) as M.
    split; [eapply awf_next_iend; eauto|]. split; [apply (ob_none _ _ _ HR); now apply a_next_fresh|].
    split; [apply (ob_link _ _ _ _ _ R'); rewrite M; apply upd_same|].
    split; [eapply ob_frame; eauto|]. exists (N.of_nat (length (alinks a))).
    rewrite (count_R _ _ HR), (count_R _ _ R'). split; auto. f_equal.
    rewrite (len_add a (a_create a) (a_next a)); [lia|auto|apply (lo_wf _ _ _ _ IOK _ _ R')| | |].
    - intros j J. rewrite M. now apply upd_other.
    - now apply a_next_fresh.
    - rewrite M, upd_same. discriminate.
  Qed.

  Lemma g_create st a q : R st a ->
    (range_full cf I st /\ fails_with (fun H h x => li_create I H h q st x) st (LimitReached (c_iend cf))) \/
    (~ range_full cf I st /\ (forall k, ~ hole I st k) /\ exists st', R st' a /\ same_links I st st' /\
       fails_with (fun H h x => li_create I H h q st x) st' AllocFailed) \/
    (~ range_full cf I st /\ exists st', R st' (a_create a) /\ creates cf I st st' (a_next a) /\
       calls_once (fun H h x => li_create I H h q st x) st' nothing (mkLink (a_next a) 0 0)).
  Proof.
    intros HR. pose proof (lo_wf _ _ _ _ IOK _ _ HR) as W. rewrite (ob_full _ _ HR).
    destruct (create_cases cf sp I R IOK st a q HR (SPC _ _ HR)) as [F C|st' F E R' C|st' F R' C].
    - left. auto.
    - right; left. split; auto. split.
      + intros k K. apply (ob_hole _ _ _ HR) in K. rewrite E in K. exact K.
      + exists st'. split; auto. split; auto. intros j. apply (ob_get _ _ _ _ HR R'). reflexivity.
    - right; right. split; auto. exists st'. split; auto. split; auto. now apply ob_creates.
  Qed.

  Lemma g_delete st a q i s t : R st a -> is_link I st i s t -> separable I st i -> qget q 0 = Val i ->
    exists st', R st' (a_delete a i) /\
      calls_once (fun H h x => li_delete I H h q st x) st' (mkLink i s t) nothing /\
      no_link I st' i /\ frame I st st' i /\
      exists n, li_count I st [] = Val (n + 1) /\ li_count I st' [] = Val n.
  Proof.
    intros HR K SEP Q. apply (ob_link _ _ _ _ _ HR) in K. apply (ob_sep _ _ _ HR) in SEP.
    destruct (lo_delete _ _ _ _ IOK _ _ _ _ _ _ HR Q K (SPD _ _ SEP)) as (st' & R' & C).
    exists st'. split; auto. split; auto. pose proof (a_delete_map a i) as M.
    assert (MN : a_map (a_delete a i) i = None) by (rewrite M; apply upd_same).
    split; [now apply (ob_none _ _ _ R')|]. split; [eapply ob_frame; eauto|].
    exists (N.of_nat (length (alinks (a_delete a i)))).
    rewrite (count_R _ _ HR), (count_R _ _ R'). split; auto. f_equal.
    rewrite (len_add (a_delete a i) a i); [lia|apply (lo_wf _ _ _ _ IOK _ _ R')|apply (lo_wf _ _ _ _ IOK _ _ HR)| |auto|congruence].
    intros j J. rewrite M. symmetry. now apply upd_other.
  Qed.

  Lemma g_delete_none st a q i : R st a -> no_link I st i -> qget q 0 = Val i ->
    fails_with (fun H h x => li_delete I H h q st x) st (NotExists i).
  Proof. intros HR K. apply (ob_none _ _ _ HR) in K. intros. eapply lo_delete_none; eauto. Qed.

  (** Index policy. *)
  Lemma g_next st a d : R st a -> dels_ok (a_free a) d ->
    (exists pre post, d = pre ++ a_next a :: post /\ hole I st (a_next a) /\ (forall k, In k pre -> ~ hole I st k)) \/
    ((forall k, ~ hole I st k) /\ (forall k, linked I st k -> k < a_next a) /\
     (a_next a = 1 \/ linked I st (a_next a - 1))).
  Proof.
    intros HR D. pose proof (lo_wf _ _ _ _ IOK _ _ HR) as W.
    setoid_rewrite (ob_hole _ _ _ HR). unfold a_next.
    destruct (a_free a) as [|f fl] eqn:E.
    - right. split; [simpl; tauto|]. split.
      + intros k K. apply (ob_top _ _ HR) in K. lia.
      + destruct (wf_top _ W) as [T|T]; [left; lia|]. right. rewrite N.add_sub. now apply (ob_linked _ _ _ HR).
    - left. destruct D as [D _]. clear W E.
      assert (G : forall d, find (inb (f :: fl)) d = Some f -> exists pre post, d = pre ++ f :: post /\ forall k, In k pre -> ~ In k (f :: fl)).
      { clear. induction d as [|x d IH]; cbn [find]; [discriminate|]. destruct (inb (f :: fl) x) eqn:E.
        - intros [= ->]. exists [], d. split; auto.
        - intros K. destruct (IH K) as (pre & post & -> & P). exists (x :: pre), post. split; auto.
          intros k [->|Hk]; auto. intros C. apply inb_in in C. congruence. }
      destruct (G d D) as (pre & post & -> & P). exists pre, post. split; auto. split; auto. now left.
  Qed.

  (** ** Deleting several links *)
  Lemma adistinct_delete a i : adistinct a -> adistinct (a_delete a i).
  Proof.
    intros D j k p. rewrite a_delete_map. unfold upd. destruct (j =? i), (k =? i); try discriminate. apply D.
  Qed.

  Definition del_distinct : Prop := forall a i, adistinct a -> sp_delete sp a i.
  Lemma spd_distinct : del_distinct.
  Proof. intros a i D. apply SPD. now apply adistinct_detachable. Qed.

  Lemma del_ok_distinct l : del_distinct ->
    forall a, adistinct a -> NoDup l -> (forall i, In i l -> a_map a i <> None) -> del_ok sp a l.
  Proof.
    intros DD. induction l as [|i l IH]; intros a D ND K; [exact Logic.I|]. inversion ND as [|? ? NI ND']; subst.
    split; [apply K; now left|]. split; [now apply DD|]. apply IH; auto using adistinct_delete.
    intros j Hj. rewrite a_delete_map, upd_other; [apply K; now right|]. intros ->. contradiction.
  Qed.

  (** A condition on single links that makes their deletion safe and survives the deletion of
      other links. *)
  Record del_safe (P : astate -> N -> Prop) : Prop := {
    ds_del : forall a i, P a i -> sp_delete sp a i;
    ds_keep : forall a i j, i <> j -> P a i -> P (a_delete a j) i;
    ds_det : forall a i, P a i -> detachable a i }.
  Lemma detachable_delete a i j : i <> j -> detachable a i -> detachable (a_delete a j) i.
  Proof.
    intros NE [D|D]; [left; now rewrite a_delete_map, upd_other|right]. intros k p. rewrite !a_delete_map, upd_other by auto.
    unfold upd. destruct (k =? j); [discriminate|]. apply D.
  Qed.
  Lemma spd_safe : del_safe detachable.
  Proof. constructor; [exact SPD|exact detachable_delete|auto]. Qed.
  Lemma del_ok_safe P l : del_safe P ->
    forall a, (forall i, In i l -> P a i) -> NoDup l -> (forall i, In i l -> a_map a i <> None) -> del_ok sp a l.
  Proof.
    intros DD. induction l as [|i l IH]; intros a D ND K; [exact Logic.I|]. inversion ND as [|? ? NI ND']; subst.
    split; [apply K; now left|]. split; [apply (ds_del P DD), D; now left|].
    assert (NE : forall j, In j l -> j <> i) by (intros j Hj ->; contradiction). apply IH; auto.
    - intros j Hj. apply (ds_keep P DD); [auto|apply D; now right].
    - intros j Hj. rewrite a_delete_map, upd_other by auto. apply K. now right.
  Qed.

  Lemma run_deletes_ok l : forall st a, R st a -> del_ok sp a l ->
    exists st', R st' (a_deletes a l) /\ run_deletes I l st = Val (st', Ok tt).
  Proof.
    induction l as [|i l IH]; intros st a HR D; [exists st; auto|]. destruct D as (M & P & D).
    destruct (a_map a i) as [[s t]|] eqn:E; [|congruence].
    destruct (d_delete_with_ok cf sp I R IOK _ _ _ _ _ HR E P) as (st1 & R1 & _ & K).
    destruct (IH _ _ R1 D) as (st2 & R2 & K2). exists st2. split; auto.
    cbn [run_deletes]. rewrite K. cbn [obind]. exact K2.
  Qed.

  Definition only_null (a : astate) : Prop := forall i p, a_map a i = Some p -> p = (0, 0).
  Definition create_null : Prop := forall st a, R st a -> only_null a -> sp_create sp a.
  Lemma only_null_create a : awf a -> only_null a -> only_null (a_create a).
  Proof.
    intros W O i p. rewrite a_create_map by auto. unfold upd. destruct (i =? a_next a); [congruence|apply O].
  Qed.

  Lemma run_creates_ok n : create_null -> forall st a, R st a -> only_null a -> a_free a = [] ->
    exists st' r, run_creates I n st = Val (st', r) /\
      match r with
      | Ok l => l = map (fun k => a_top a + 1 + N.of_nat k) (seq 0 n)
      | Err e => e = AllocFailed \/ (e = LimitReached (c_iend cf) /\ c_iend cf < a_top a + N.of_nat n)
      end.
  Proof.
    intros CN. induction n as [|n IH]; intros st a HR ON E; [exists st, (Ok []); auto|].
    cbn [run_creates]. unfold d_create. pose proof (lo_iend _ _ _ _ IOK _ _ HR).
    destruct (create_cases cf sp I R IOK st a [] HR (CN _ _ HR ON)) as [F C|st' F _ R' C|st' F R' C].
    - rewrite (d_create_fail _ _ _ _ _ C). cbn [obind]. exists st, (Err (LimitReached (c_iend cf))). split; auto.
      right. split; auto. destruct F. lia.
    - rewrite (d_create_fail _ _ _ _ _ C). cbn [obind]. exists st', (Err AllocFailed). auto.
    - rewrite (d_create_once _ _ _ _ _ _ _ C). cbn [obind].
      assert (EF : a_free (a_create a) = []) by (unfold a_create; rewrite E; reflexivity).
      assert (ET : a_top (a_create a) = a_top a + 1) by (unfold a_create; rewrite E; reflexivity).
      assert (EN : a_next a = a_top a + 1) by (unfold a_next; rewrite E; reflexivity).
      destruct (IH _ _ R' (only_null_create _ (lo_wf _ _ _ _ IOK _ _ HR) ON) EF) as (st2 & r & K & P). rewrite K. cbn [obind]. exists st2, (rmap (cons (a_next a)) r).
      split; auto. rewrite ET in P. destruct r as [l|e]; cbn [rmap].
      + rewrite P, EN. cbn [seq map]. f_equal; [lia|]. rewrite <- seq_shift, map_map. apply map_ext. intros. lia.
      + destruct P as [P|[P1 P2]]; auto. right. split; auto. lia.
  Qed.

  Lemma awf_empty_top a : awf a -> (forall i, a_map a i = None) -> a_top a = 0 /\ a_free a = [].
  Proof.
    intros W K. destruct (wf_top _ W) as [T|T]; [|congruence]. split; auto.
    destruct (a_free a) as [|x l] eqn:E; auto. pose proof (wf_free _ W x) as F. rewrite E in F.
    specialize (F (or_introl eq_refl)). lia.
  Qed.

  Lemma g_delete_everything_w st a l : del_distinct -> count_known -> create_null -> R st a -> distinct_pairs I st -> NoDup l ->
    (forall i, In i l <-> linked I st i) ->
    exists st', run_deletes I l st = Val (st', Ok tt) /\ R st' (a_deletes a l) /\
      (forall i, no_link I st' i) /\ li_count I st' [] = Val 0 /\
      forall n, exists st2 r, run_creates I n st' = Val (st2, r) /\
        match r with
        | Ok l => l = map N.of_nat (seq 1 n)
        | Err e => e = AllocFailed \/ (e = LimitReached (c_iend cf) /\ c_iend cf < N.of_nat n)
        end.
  Proof.
    intros DD CK CN HR DP ND K. setoid_rewrite (ob_linked _ _ _ HR) in K. apply (ob_distinct _ _ HR) in DP.
    assert (DO : del_ok sp a l) by (apply del_ok_distinct; auto; intros; now apply K).
    destruct (run_deletes_ok _ _ _ HR DO) as (st' & R' & E). exists st'. split; auto. split; auto.
    assert (MN : forall i, a_map (a_deletes a l) i = None).
    { intros i. rewrite a_deletes_map. destruct (in_dec N.eq_dec i l) as [|NI]; auto.
      destruct (a_map a i) eqn:M; auto. exfalso. apply NI, K. congruence. }
    destruct (awf_empty_top _ (lo_wf _ _ _ _ IOK _ _ R') MN) as [T0 F0].
    split; [intros i; now apply (ob_none _ _ _ R')|]. split.
    - rewrite (count_R0 CK _ _ R'). unfold alinks. rewrite T0. reflexivity.
    - intros n. destruct (run_creates_ok n CN _ _ R' (fun i p E => ltac:(congruence)) F0) as (st2 & r & K2 & P). exists st2, r. split; auto.
      rewrite T0 in P. destruct r; auto. rewrite P, <- seq_shift, map_map. apply map_ext. intros. lia.
  Qed.

  Lemma g_delete_everything st a l : R st a -> distinct_pairs I st -> NoDup l ->
    (forall i, In i l <-> linked I st i) ->
    exists st', run_deletes I l st = Val (st', Ok tt) /\ R st' (a_deletes a l) /\
      (forall i, no_link I st' i) /\ li_count I st' [] = Val 0 /\
      forall n, exists st2 r, run_creates I n st' = Val (st2, r) /\
        match r with
        | Ok l => l = map N.of_nat (seq 1 n)
        | Err e => e = AllocFailed \/ (e = LimitReached (c_iend cf) /\ c_iend cf < N.of_nat n)
        end.
  Proof.
    apply g_delete_everything_w; [exact spd_distinct|exact spq_count|]. intros st' a' HR' _. eapply SPC; eauto.
  Qed.

  (** ** delete_all *)
  Lemma len_alinks_split a : awf a -> N.of_nat (length (alinks a)) + N.of_nat (length (a_free a)) = a_top a.
  Proof.
    intros W. assert (P : Permutation (map l_index (alinks a) ++ a_free a) (range1 (a_top a))).
    { apply NoDup_Permutation.
      - apply NoDup_app_intro; [apply nodup_alinks_idx|apply (wf_nodup _ W)|].
        intros x Hx Hf. apply in_map_iff in Hx as (l & <- & Hl). apply in_alinks' in Hl; auto.
        apply (awf_some _ _ _ W) in Hl. tauto.
      - apply nodup_range1.
      - intros x. rewrite in_app_iff, in_range1. split.
        + intros [K|K]; [|now apply (wf_free _ W)]. apply in_map_iff in K as (l & <- & Hl).
          apply in_alinks' in Hl; auto. apply (awf_some _ _ _ W) in Hl. tauto.
        + intros K. destruct (in_dec N.eq_dec x (a_free a)); auto. left.
          assert (NN : a_map a x <> None) by now apply (wf_dom _ W).
          destruct (a_map a x) as [[s t]|] eqn:E; [|congruence].
          apply in_map_iff. exists (mkLink x s t). split; auto. now apply in_alinks. }
    apply Permutation_length in P. rewrite app_length, map_length, length_range1 in P. lia.
  Qed.

  Lemma g_delete_all_dense_w n : del_distinct -> count_known -> forall st a, R st a -> adistinct a -> a_free a = [] -> a_top a = N.of_nat n ->
    exists st' a', R st' a' /\ (forall i, a_map a' i = None) /\
      forall fuel, (n < fuel)%nat -> d_delete_all I fuel st = Val (st', Ok tt).
  Proof.
    intros DD CK. induction n as [|n IH]; intros st a HR D EF ET.
    - pose proof (lo_wf _ _ _ _ IOK _ _ HR) as W. exists st, a. split; auto.
      assert (MN : forall i, a_map a i = None).
      { intros i. destruct (a_map a i) eqn:E; auto. exfalso.
        assert (NN : a_map a i <> None) by congruence. apply (wf_dom _ W) in NN. lia. }
      split; auto. intros fuel LT. destruct fuel; [lia|]. cbn [d_delete_all]. unfold d_count, d_count_by.
      rewrite (count_R0 CK _ _ HR). cbn [obind]. unfold alinks. rewrite ET. reflexivity.
    - pose proof (lo_wf _ _ _ _ IOK _ _ HR) as W.
      assert (MT : a_map a (a_top a) <> None). { apply (wf_dom _ W). rewrite EF. split; [lia|simpl; tauto]. }
      destruct (a_map a (a_top a)) as [[s t]|] eqn:E; [|congruence].
      destruct (d_delete_with_ok cf sp I R IOK _ _ _ _ _ HR E (DD _ _ D)) as (st1 & R1 & _ & K).
      assert (A1 : a_free (a_delete a (a_top a)) = [] /\ a_top (a_delete a (a_top a)) = N.of_nat n).
      { unfold a_delete. rewrite N.ltb_irrefl. cbn [a_free a_top]. rewrite EF. split; auto.
        rewrite ET, Nnat.Nat2N.id. cbn [top_of]. rewrite upd_same.
        destruct n as [|n']; [reflexivity|]. cbn [top_of]. rewrite upd_other by lia.
        assert (NN : a_map a (N.of_nat (Datatypes.S n')) <> None).
        { apply (wf_dom _ W). rewrite EF. split; [lia|simpl; tauto]. }
        destruct (a_map a (N.of_nat (Datatypes.S n'))); congruence. }
      destruct (IH _ _ R1 (adistinct_delete _ _ D) (proj1 A1) (proj2 A1)) as (st' & a' & R' & MN & G).
      exists st', a'. split; auto. split; auto. intros fuel LT. destruct fuel as [|fuel]; [lia|].
      cbn [d_delete_all]. unfold d_count, d_count_by. rewrite (count_R0 CK _ _ HR). cbn [obind].
      pose proof (len_alinks_split a W) as LS. rewrite EF in LS. cbn [length] in LS. rewrite N.add_0_r in LS.
      rewrite LS. destruct (N.eqb_spec (a_top a) 0); [lia|]. rewrite K. cbn [obind]. apply G. lia.
  Qed.

  Lemma g_delete_all_holes_w n : del_distinct -> count_known -> forall st a, R st a -> adistinct a -> a_free a <> [] ->
    length (alinks a) = n ->
    exists st' a' k, R st' a' /\ In k (a_free a') /\ (a_map a' k = None) /\
      (forall j, a_map a' j <> None -> a_map a j <> None) /\ a_map a k = None /\ 1 <= k /\ k < a_top a /\
      forall fuel, (n < fuel)%nat -> d_delete_all I fuel st = Val (st', Err (NotExists k)).
  Proof.
    intros DD CK. induction n as [|n IH]; intros st a HR D NE LN; pose proof (lo_wf _ _ _ _ IOK _ _ HR) as W.
    - exfalso. pose proof (len_alinks_split a W) as LS. rewrite LN in LS. cbn in LS.
      destruct (a_free a) as [|x fl] eqn:E; [congruence|]. cbn [length] in LS.
      destruct (wf_top _ W) as [T|T]; [lia|].
      destruct (a_map a (a_top a)) as [[s t]|] eqn:M; [|congruence].
      apply (in_alinks a _ _ _ W) in M. destruct (alinks a); [destruct M|discriminate].
    - pose proof (len_alinks_split a W) as LS. rewrite LN in LS.
      assert (LT : N.of_nat (Datatypes.S n) < a_top a).
      { destruct (a_free a) as [|x fl]; [congruence|]. cbn [length] in LS. lia. }
      assert (TN : a_map a (a_top a) <> None) by (destruct (wf_top _ W) as [T|T]; [lia|auto]).
      destruct (a_map a (N.of_nat (Datatypes.S n))) as [[s t]|] eqn:E.
      + destruct (d_delete_with_ok cf sp I R IOK _ _ _ _ _ HR E (DD _ _ D)) as (st1 & R1 & _ & K).
        set (c := N.of_nat (Datatypes.S n)) in *.
        assert (A1 : a_delete a c = mkA (a_top a) (c :: a_free a) (upd (a_map a) c None)).
        { unfold a_delete. destruct (N.ltb_spec c (a_top a)); [reflexivity|lia]. }
        assert (L1 : length (alinks (a_delete a c)) = n).
        { assert (Q : length (alinks a) = Datatypes.S (length (alinks (a_delete a c)))).
          { apply (len_add (a_delete a c) a c); auto; [apply (lo_wf _ _ _ _ IOK _ _ R1)| | |congruence].
            - intros j J. rewrite A1. cbn. now rewrite upd_other.
            - rewrite A1. cbn. apply upd_same. }
          lia. }
        destruct (IH _ _ R1 (adistinct_delete _ _ D)) as (st' & a' & k & R' & K1 & K2 & K3 & K4 & K5 & K6 & K7); auto.
        { rewrite A1. discriminate. }
        rewrite A1 in K3, K4, K6. cbn [a_map a_top] in K3, K4, K6.
        destruct (N.eq_dec k c) as [->|KC].
        * (* the next round would be [c - 1], never [c] again: find the real hole *)
          exfalso.
          assert (W1 := lo_wf _ _ _ _ IOK _ _ R1).
          (* the loop fails at an index not above the count, which is below c *)
          assert (FZ : forall fuel st a, R st a -> adistinct a -> forall st2 k2, d_delete_all I fuel st = Val (st2, Err (NotExists k2)) ->
                       k2 <= N.of_nat (length (alinks a))).
          { clear - IOK DD CK. induction fuel as [|fuel IHf]; intros st a HR D st2 k2; [discriminate|].
            cbn [d_delete_all]. unfold d_count, d_count_by. rewrite (count_R0 CK _ _ HR). cbn [obind].
            destruct (N.eqb_spec (N.of_nat (length (alinks a))) 0) as [Z|NZ]; [discriminate|].
            pose proof (lo_wf _ _ _ _ IOK _ _ HR) as W.
            destruct (a_map a (N.of_nat (length (alinks a)))) as [[s t]|] eqn:E.
            - destruct (d_delete_with_ok cf sp I R IOK _ _ _ _ _ HR E (DD _ _ D)) as (st1 & R1 & _ & K).
              rewrite K. cbn [obind]. intros F. apply (IHf _ _ R1 (adistinct_delete _ _ D)) in F.
              assert (Q : length (alinks a) = Datatypes.S (length (alinks (a_delete a (N.of_nat (length (alinks a))))))).
              { apply (len_add (a_delete a _) a (N.of_nat (length (alinks a)))); auto; [apply (lo_wf _ _ _ _ IOK _ _ R1)| | |congruence].
                - intros j J. rewrite a_delete_map. now rewrite upd_other.
                - rewrite a_delete_map. apply upd_same. }
              lia.
            - rewrite (proj2 (d_delete_none cf sp I R IOK _ _ _ HR E)). cbn [obind]. intros [= _ <-]. lia. }
          specialize (FZ (Datatypes.S n) _ _ R1 (adistinct_delete _ _ D) st' c (K7 (Datatypes.S n) (le_n (Datatypes.S n)))).
          rewrite L1 in FZ. subst c. lia.
        * rewrite upd_other in K4 by auto.
          exists st', a', k. split; auto. split; auto. split; auto. split.
          { intros j J. apply K3 in J. unfold upd in J. destruct (j =? c); congruence. }
          split; auto. split; auto. split; auto.
          intros fuel LF. destruct fuel as [|fuel]; [lia|]. cbn [d_delete_all]. unfold d_count, d_count_by.
          rewrite (count_R0 CK _ _ HR), LN. fold c. cbn [obind]. destruct (N.eqb_spec c 0); [subst c; lia|].
          rewrite K. cbn [obind]. apply K7. lia.
      + exists st, a, (N.of_nat (Datatypes.S n)). split; auto.
        assert (IN : In (N.of_nat (Datatypes.S n)) (a_free a)).
        { destruct (in_dec N.eq_dec (N.of_nat (Datatypes.S n)) (a_free a)) as [|NI]; auto. exfalso.
          apply (proj2 (wf_dom _ W (N.of_nat (Datatypes.S n)))); auto. split; auto. lia. }
        split; auto. split; auto. split; auto. split; auto. split; [lia|]. split; auto.
        intros fuel LF. destruct fuel as [|fuel]; [lia|]. cbn [d_delete_all]. unfold d_count, d_count_by.
        rewrite (count_R0 CK _ _ HR), LN. cbn [obind]. destruct (N.eqb_spec (N.of_nat (Datatypes.S n)) 0); [lia|].
        rewrite (proj2 (d_delete_none cf sp I R IOK _ _ _ HR E)). reflexivity.
  Qed.

  Lemma g_delete_all_dense n : forall st a, R st a -> adistinct a -> a_free a = [] -> a_top a = N.of_nat n ->
    exists st' a', R st' a' /\ (forall i, a_map a' i = None) /\
      forall fuel, (n < fuel)%nat -> d_delete_all I fuel st = Val (st', Ok tt).
  Proof. exact (g_delete_all_dense_w n spd_distinct spq_count). Qed.
  Lemma g_delete_all_holes n : forall st a, R st a -> adistinct a -> a_free a <> [] ->
    length (alinks a) = n ->
    exists st' a' k, R st' a' /\ In k (a_free a') /\ (a_map a' k = None) /\
      (forall j, a_map a' j <> None -> a_map a j <> None) /\ a_map a k = None /\ 1 <= k /\ k < a_top a /\
      forall fuel, (n < fuel)%nat -> d_delete_all I fuel st = Val (st', Err (NotExists k)).
  Proof. exact (g_delete_all_holes_w n spd_distinct spq_count). Qed.

  (** ** delete_query_with, delete_usages *)
  Lemma links_at_self a L : awf a -> (forall l, In l L -> a_map a (l_index l) = Some (l_source l, l_target l)) ->
    links_at a (map l_index L) = L.
  Proof.
    intros W. induction L as [|l L IH]; intros K; [reflexivity|]. cbn [map links_at flat_map].
    rewrite (K l) by now left. fold (links_at a (map l_index L)). rewrite IH by (intros; apply K; now right).
    destruct l; reflexivity.
  Qed.

  Lemma nodup_idx (a : astate) L : NoDup L -> (forall l, In l L -> a_map a (l_index l) = Some (l_source l, l_target l)) ->
    NoDup (map l_index L).
  Proof.
    intros ND K. induction L as [|l L IH]; [constructor|]. inversion ND as [|? ? NI ND']; subst.
    cbn [map]. constructor; [|apply IH; auto; intros; apply K; now right].
    intros C. apply in_map_iff in C as (k & E & Hk). apply NI.
    assert (k = l); [|now subst]. pose proof (K l (or_introl eq_refl)) as K1. pose proof (K k (or_intror Hk)) as K2.
    rewrite E in K2. destruct k, l; cbn in *. congruence.
  Qed.

  Lemma ob_removed st a st' l L : R st a -> R st' (a_deletes a l) -> (forall j, In j l <-> In j (map l_index L)) -> removed I st st' L.
  Proof.
    intros HR HR' E j. rewrite (lo_get _ _ _ _ IOK _ _ _ HR'), (lo_get _ _ _ _ IOK _ _ _ HR), a_deletes_map.
    destruct (in_dec N.eq_dec j l) as [K|K], (in_dec N.eq_dec j (map l_index L)) as [K'|K']; auto;
      rewrite E in K; contradiction.
  Qed.

  Lemma g_delete_visits_w P st a q L : del_safe P -> R st a -> (forall l, In l L -> P a (l_index l)) -> visits I st q L -> NoDup L ->
    (forall l, In l L -> li_get I st (l_index l) = Val (Some l)) ->
    exists st', R st' (a_deletes a (rev (map l_index L))) /\ removed I st st' L /\
      forall H B (h : uwrite H B) x, d_delete_query_with I h q st x = Val (st', told h (rev L) x, Ok tt).
  Proof.
    intros DD HR D V ND K. pose proof (lo_wf _ _ _ _ IOK _ _ HR) as W.
    assert (K' : forall l, In l L -> a_map a (l_index l) = Some (l_source l, l_target l)).
    { intros [i s t] Hl. apply (ob_link _ _ _ _ _ HR). now apply K in Hl. }
    assert (DO : del_ok sp a (rev (map l_index L))).
    { apply (del_ok_safe P _ DD); [|apply NoDup_rev; eapply nodup_idx; eauto|].
      - intros i Hi. apply in_rev, in_map_iff in Hi as (l & <- & Hl). auto.
      - intros i Hi. apply in_rev, in_map_iff in Hi as (l & <- & Hl). rewrite K' by auto. discriminate. }
    destruct (d_delete_query_ok cf sp I R IOK _ _ _ _ HR V DO) as (st' & R' & G). exists st'. split; auto.
    split; [eapply ob_removed; eauto; intros; now rewrite <- in_rev|].
    intros H B h x. rewrite G, <- map_rev, links_at_self; auto. intros l Hl. apply K'. now apply in_rev.
  Qed.

  Lemma g_delete_visits st a q L : R st a -> (forall l, In l L -> separable I st (l_index l)) -> visits I st q L -> NoDup L ->
    (forall l, In l L -> li_get I st (l_index l) = Val (Some l)) ->
    exists st', R st' (a_deletes a (rev (map l_index L))) /\ removed I st st' L /\
      forall H B (h : uwrite H B) x, d_delete_query_with I h q st x = Val (st', told h (rev L) x, Ok tt).
  Proof.
    intros HR D. apply (g_delete_visits_w detachable); auto using spd_safe. intros l Hl. apply (ob_sep _ _ _ HR). auto.
  Qed.

  Lemma told_app H B (h : uwrite H B) l1 l2 x : told h (l1 ++ l2) x = told h l2 (told h l1 x).
  Proof. unfold told. apply fold_left_app. Qed.

  Definition src_seen (st : S) (i : N) : Prop :=
    exists L, visits I st [any; i; any] L /\ NoDup L /\
      forall l, In l L <-> li_get I st (l_index l) = Val (Some l) /\ l_source l = i.
  Definition tgt_seen (st : S) (i : N) : Prop :=
    exists L, visits I st [any; any; i] L /\ NoDup L /\
      forall l, In l L <-> li_get I st (l_index l) = Val (Some l) /\ l_target l = i.
  Lemma visits_src st a i : R st a -> i <> 0 -> i <> any ->
    exists L, visits I st [any; i; any] L /\ NoDup L /\
      forall l, In l L <-> li_get I st (l_index l) = Val (Some l) /\ l_source l = i.
  Proof.
    intros HR I0 IA. destruct (g_match st a [any; i; any] HR) as (L & V & ND & K).
    - cbn; lia.
    - discriminate.
    - cbn. pose proof any0. intuition.
    - cbn. tauto.
    - cbn. tauto.
    - exists L. split; auto. split; auto. intros l. rewrite K. cbn. unfold part_match. intuition congruence.
  Qed.
  Lemma visits_tgt st a i : R st a -> i <> 0 -> i <> any ->
    exists L, visits I st [any; any; i] L /\ NoDup L /\
      forall l, In l L <-> li_get I st (l_index l) = Val (Some l) /\ l_target l = i.
  Proof.
    intros HR I0 IA. destruct (g_match st a [any; any; i] HR) as (L & V & ND & K).
    - cbn; lia.
    - discriminate.
    - cbn. pose proof any0. intuition.
    - cbn. tauto.
    - cbn. tauto.
    - exists L. split; auto. split; auto. intros l. rewrite K. cbn. unfold part_match. intuition congruence.
  Qed.

  Lemma g_delete_usages_w P st a i : del_safe P -> R st a -> src_seen st i -> tgt_seen st i ->
    (forall l, user I st i l -> P a (l_index l)) ->
    (forall x, x <> i -> ~ is_link I st x i i) ->
    exists st' a' L, R st' a' /\ NoDup L /\ (forall l, In l L <-> user I st i l) /\ removed I st st' L /\
      (forall H B (h : uwrite H B) x, d_delete_usages_with cf I h i st x = Val (st', told h L x, Ok tt)) /\
      d_delete_usages cf I i st = Val (st', Ok tt).
  Proof.
    intros DD HR VS VT DP NB. pose proof (lo_wf _ _ _ _ IOK _ _ HR) as W.
    destruct VS as (L1 & V1 & ND1 & K1).
    destruct VT as (L2 & V2 & ND2 & K2).
    set (L := filter (fun k => negb (l_index k =? i)) L1 ++ filter (fun k => negb (l_index k =? i)) L2).
    assert (IN : forall l, In l L <-> user I st i l).
    { intros l. unfold L, user. rewrite in_app_iff, !filter_In, K1, K2, !negb_true_iff, !N.eqb_neq. tauto. }
    assert (ND : NoDup L).
    { apply NoDup_app_intro; auto using NoDup_filter. intros l M1 M2.
      apply filter_In in M1 as [M1 M3], M2 as [M2 _]. apply K1 in M1 as [G1 G2]. apply K2 in M2 as [_ G3].
      apply negb_true_iff, N.eqb_neq in M3. apply (NB (l_index l)); auto. unfold is_link.
      destruct l; cbn in *. congruence. }
    assert (KM : forall l, In l L -> a_map a (l_index l) = Some (l_source l, l_target l)).
    { intros [j s t] Hl. apply (ob_link _ _ _ _ _ HR). apply IN in Hl. destruct Hl as [Hl _]. exact Hl. }
    assert (DO : del_ok sp a (rev (map l_index L))).
    { apply (del_ok_safe P _ DD); [|apply NoDup_rev; eapply nodup_idx; eauto|].
      - intros j Hj. apply in_rev, in_map_iff in Hj as (l & <- & Hl). apply DP. now apply IN.
      - intros j Hj. apply in_rev, in_map_iff in Hj as (l & <- & Hl). rewrite KM by auto. discriminate. }
    destruct (d_delete_usages_ok cf sp I R IOK _ _ _ _ _ HR V1 V2 DO) as (st' & R' & G). fold L in R', G.
    exists st', (a_deletes a (rev (map l_index L))), (rev L). split; auto. split; [now apply NoDup_rev|].
    split; [intros l; rewrite <- in_rev; auto|].
    split; [apply (ob_removed _ _ _ _ _ HR R'); intros j; rewrite map_rev; reflexivity|].
    assert (G' : forall H B (h : uwrite H B) x, d_delete_usages_with cf I h i st x = Val (st', told h (rev L) x, Ok tt)).
    { intros H B h x. rewrite G, <- map_rev, links_at_self; auto. intros l Hl. apply KM. now apply in_rev. }
    split; auto. unfold d_delete_usages. rewrite G'. reflexivity.
  Qed.

  Lemma g_delete_usages_double_w P st a i x : del_safe P -> R st a -> i <> 0 -> src_seen st i -> tgt_seen st i ->
    (forall l, user I st i l -> P a (l_index l)) ->
    x <> i -> is_link I st x i i ->
    exists st' a', R st' a' /\ d_delete_usages cf I i st = Val (st', Err (NotExists x)).
  Proof.
    intros DD HR I0 VS VT DP XI LX. pose proof (lo_wf _ _ _ _ IOK _ _ HR) as W.
    destruct VS as (L1 & V1 & ND1 & K1).
    destruct VT as (L2 & V2 & ND2 & K2).
    set (F := filter (fun k => negb (l_index k =? i))).
    set (lx := mkLink x i i).
    assert (IN1 : In lx (F L1)).
    { apply filter_In. split; [apply K1; auto|]. cbn. destruct (N.eqb_spec x i); [congruence|auto]. }
    assert (IN2 : In lx (F L2)).
    { apply filter_In. split; [apply K2; auto|]. cbn. destruct (N.eqb_spec x i); [congruence|auto]. }
    assert (MA : forall l, In l (F L1) \/ In l (F L2) -> a_map a (l_index l) = Some (l_source l, l_target l)).
    { intros [j s t] [Hl|Hl]; apply filter_In in Hl as [Hl _]; apply (ob_link _ _ _ _ _ HR);
        [apply K1 in Hl|apply K2 in Hl]; tauto. }
    (* the only link occurring in both parts is lx *)
    assert (ONE : forall l, In l (F L1) -> In l (F L2) -> l = lx).
    { intros l M1 M2. pose proof (MA l (or_introl M1)) as ML.
      apply filter_In in M1 as [M1 _], M2 as [M2 _]. apply K1 in M1 as [_ G2]. apply K2 in M2 as [_ G3].
      rewrite G2, G3 in ML. assert (l_index l = x).
      { destruct (ds_det P DD a x) as [Z|Z].
        - apply (DP lx). split; [exact LX|]. cbn. auto.
        - apply (ob_link _ _ _ _ _ HR) in LX. congruence.
        - apply (Z _ (i, i)); [now apply (ob_link _ _ _ _ _ HR)|exact ML]. }
      subst lx. destruct l; cbn in *; congruence. }
    (* deletion list: rev (F L2) then rev (F L1); split at the second lx *)
    apply in_split in IN1 as (A & B & EA).
    set (v1 := rev (map l_index (F L2)) ++ rev (map l_index B)).
    assert (EV : rev (map l_index (F L1 ++ F L2)) = v1 ++ x :: rev (map l_index A)).
    { unfold v1. rewrite map_app, rev_app_distr, EA, map_app, rev_app_distr. cbn [map rev lx l_index].
      rewrite <- !app_assoc. reflexivity. }
    assert (NDF1 : NoDup (F L1)) by now apply NoDup_filter.
    assert (NDF2 : NoDup (F L2)) by now apply NoDup_filter.
    assert (NB : NoDup (B ++ F L2)).
    { apply NoDup_app_intro; auto.
      - rewrite EA in NDF1. apply NoDup_remove_1 in NDF1. apply NoDup_app_inv in NDF1. tauto.
      - intros l M1 M2. assert (l = lx).
        { apply ONE; auto. rewrite EA. apply in_or_app. right. now right. }
        subst l. rewrite EA in NDF1. apply NoDup_remove_2 in NDF1. apply NDF1. apply in_or_app. now right. }
    assert (DO : del_ok sp a v1).
    { unfold v1. rewrite <- rev_app_distr, <- map_app. apply (del_ok_safe P _ DD); auto.
      - intros j Hj. apply in_rev, in_map_iff in Hj as (l & <- & Hl). apply DP.
        assert (Hl' : In l (F L1) \/ In l (F L2)).
        { apply in_app_or in Hl as [Hl|Hl]; auto. left. rewrite EA. apply in_or_app. right. now right. }
        unfold user. destruct Hl' as [M|M]; apply filter_In in M as [M M']; apply negb_true_iff, N.eqb_neq in M';
          [apply K1 in M|apply K2 in M]; tauto.
      - apply NoDup_rev. eapply nodup_idx; [exact NB|]. intros l Hl. apply MA.
        apply in_app_or in Hl as [Hl|Hl]; auto. left. rewrite EA. apply in_or_app. right. now right.
      - intros j Hj. apply in_rev, in_map_iff in Hj as (l & <- & Hl). rewrite MA; [discriminate|].
        apply in_app_or in Hl as [Hl|Hl]; auto. left. rewrite EA. apply in_or_app. right. now right. }
    assert (MX : a_map (a_deletes a v1) x = None).
    { rewrite a_deletes_map. destruct (in_dec N.eq_dec x v1) as [|NI]; auto. exfalso. apply NI.
      unfold v1. apply in_or_app. left. apply in_rev. rewrite rev_involutive. apply in_map_iff. exists lx. auto. }
    destruct (d_delete_list_fail cf sp I R IOK (v1 ++ x :: rev (map l_index A)) st a x HR) as (st' & l' & R' & G).
    { exists v1, (rev (map l_index A)). auto. }
    exists st', (a_deletes a l'). split; auto.
    unfold d_delete_usages, d_delete_usages_with, d_count_by. rewrite (proj2 V1), (proj2 V2). cbn [obind].
    rewrite (d_each_by_ok I _ _ _ _ _ _ _ V1), (urun_filter (fun k => negb (l_index k =? i)) l_index). cbn [obind app].
    rewrite (d_each_by_ok I _ _ _ _ _ _ _ V2), (urun_filter (fun k => negb (l_index k =? i)) l_index). cbn [obind].
    rewrite <- map_app. fold F. rewrite EV.
    destruct (G unit unit (fun (x : unit) _ _ => (x, None)) tt) as ([x' b'] & E). rewrite E. reflexivity.
  Qed.

  Lemma g_delete_usages st a i : R st a -> i <> 0 -> i <> any ->
    (forall l, user I st i l -> separable I st (l_index l)) -> (forall x, x <> i -> ~ is_link I st x i i) ->
    exists st' a' L, R st' a' /\ NoDup L /\ (forall l, In l L <-> user I st i l) /\ removed I st st' L /\
      (forall H B (h : uwrite H B) x, d_delete_usages_with cf I h i st x = Val (st', told h L x, Ok tt)) /\
      d_delete_usages cf I i st = Val (st', Ok tt).
  Proof.
    intros HR I0 IA D. apply (g_delete_usages_w detachable _ a); auto; [exact spd_safe|eapply visits_src; eauto|eapply visits_tgt; eauto|].
    intros l Hl. apply (ob_sep _ _ _ HR). auto.
  Qed.
  Lemma g_delete_usages_double st a i x : R st a -> i <> 0 -> i <> any -> (forall l, user I st i l -> separable I st (l_index l)) ->
    x <> i -> is_link I st x i i ->
    exists st' a', R st' a' /\ d_delete_usages cf I i st = Val (st', Err (NotExists x)).
  Proof.
    intros HR I0 IA D. apply (g_delete_usages_double_w detachable _ a); auto; [exact spd_safe|eapply visits_src; eauto|eapply visits_tgt; eauto|].
    intros l Hl. apply (ob_sep _ _ _ HR). auto.
  Qed.

  (** ** create_link, create_point, get_or_create *)
  Lemma det_fresh a s t : awf a -> sp_update sp (a_create a) (a_next a) s t.
  Proof. intros W. apply SPU. left. rewrite a_create_map by auto. apply upd_same. Qed.

  Lemma ob_adds st a st' s t : R st a -> ~ a_full cf a ->
    R st' (a_update (a_create a) (a_next a) s t) -> adds cf I st st' (a_next a) s t.
  Proof.
    intros HR NF R'. pose proof (lo_wf _ _ _ _ IOK _ _ HR) as W.
    split; [eapply awf_next_iend; eauto|]. split; [apply (ob_none _ _ _ HR); now apply a_next_fresh|].
    split; [apply (ob_link _ _ _ _ _ R'); cbn; apply upd_same|].
    intros j J. apply (ob_get _ _ _ _ HR R'). cbn [a_update a_map]. rewrite upd_other by auto.
    rewrite a_create_map by auto. now apply upd_other.
  Qed.

  Lemma g_create_link_w st a s t : R st a -> sp_create sp a -> sp_update sp (a_create a) (a_next a) s t ->
    (range_full cf I st /\ d_create_link I s t st = Val (st, Err (LimitReached (c_iend cf)))) \/
    (exists st', R st' a /\ same_links I st st' /\ d_create_link I s t st = Val (st', Err AllocFailed)) \/
    (exists st', R st' (a_update (a_create a) (a_next a) s t) /\ adds cf I st st' (a_next a) s t /\
       d_create_link I s t st = Val (st', Ok (a_next a))).
  Proof.
    intros HR SC SU. pose proof (lo_wf _ _ _ _ IOK _ _ HR) as W. rewrite (ob_full _ _ HR).
    destruct (d_create_link_ok cf sp I R IOK st a s t HR SC SU)
      as [(e & K1 & -> & K2)|[(st' & K1 & K2 & K3)|(st' & K1 & K2 & K3)]]; auto.
    - right; left. exists st'. split; auto. split; auto. intros j. now apply (ob_get _ _ _ _ HR K2).
    - right; right. exists st'. split; auto. split; auto. now apply (ob_adds _ a).
  Qed.
  Lemma g_create_link st a s t : R st a ->
    (range_full cf I st /\ d_create_link I s t st = Val (st, Err (LimitReached (c_iend cf)))) \/
    (exists st', R st' a /\ same_links I st st' /\ d_create_link I s t st = Val (st', Err AllocFailed)) \/
    (exists st', R st' (a_update (a_create a) (a_next a) s t) /\ adds cf I st st' (a_next a) s t /\
       d_create_link I s t st = Val (st', Ok (a_next a))).
  Proof.
    intros HR. pose proof (lo_wf _ _ _ _ IOK _ _ HR) as W. apply g_create_link_w; auto; [eapply SPC; eauto|now apply det_fresh].
  Qed.

  Lemma g_create_point_w st a : R st a -> sp_create sp a -> sp_update sp (a_create a) (a_next a) (a_next a) (a_next a) ->
    (range_full cf I st /\ d_create_point I st = Val (st, Err (LimitReached (c_iend cf)))) \/
    (exists st', R st' a /\ same_links I st st' /\ d_create_point I st = Val (st', Err AllocFailed)) \/
    (exists st', R st' (a_update (a_create a) (a_next a) (a_next a) (a_next a)) /\
       adds cf I st st' (a_next a) (a_next a) (a_next a) /\
       d_create_point I st = Val (st', Ok (a_next a))).
  Proof.
    intros HR SC SU. pose proof (lo_wf _ _ _ _ IOK _ _ HR) as W. rewrite (ob_full _ _ HR).
    destruct (d_create_point_ok cf sp I R IOK st a HR SC SU)
      as [[K1 K2]|[(st' & K1 & K2 & K3)|(st' & K1 & K2 & K3)]]; auto.
    - right; left. exists st'. split; auto. split; auto. intros j. now apply (ob_get _ _ _ _ HR K2).
    - right; right. exists st'. split; auto. split; auto. now apply (ob_adds _ a).
  Qed.
  Lemma g_create_point st a : R st a ->
    (range_full cf I st /\ d_create_point I st = Val (st, Err (LimitReached (c_iend cf)))) \/
    (exists st', R st' a /\ same_links I st st' /\ d_create_point I st = Val (st', Err AllocFailed)) \/
    (exists st', R st' (a_update (a_create a) (a_next a) (a_next a) (a_next a)) /\
       adds cf I st st' (a_next a) (a_next a) (a_next a) /\
       d_create_point I st = Val (st', Ok (a_next a))).
  Proof.
    intros HR. pose proof (lo_wf _ _ _ _ IOK _ _ HR) as W. apply g_create_point_w; auto; [eapply SPC; eauto|now apply det_fresh].
  Qed.

  Lemma g_search st a s t : R st a -> s <> 0 -> s <> any -> t <> any ->
    (d_search cf I st s t = Val None /\ forall i, ~ is_link I st i s t) \/
    (exists i, d_search cf I st s t = Val (Some i) /\ is_link I st i s t).
  Proof.
    intros HR S0 SA TA. setoid_rewrite (ob_link _ _ _ _ _ HR).
    apply (d_search_ok cf sp I R IOK); auto. eapply SPQ; eauto. discriminate.
  Qed.

  Lemma g_get_or_create st a s t : R st a -> s <> 0 -> s <> any -> t <> any ->
    (exists i, is_link I st i s t /\ d_get_or_create cf I s t st = Val (st, Ok i)) \/
    ((forall i, ~ is_link I st i s t) /\
      ((range_full cf I st /\ d_get_or_create cf I s t st = Val (st, Err (LimitReached (c_iend cf)))) \/
       (exists st', R st' a /\ same_links I st st' /\ d_get_or_create cf I s t st = Val (st', Err AllocFailed)) \/
       (exists st' i, R st' (a_update (a_create a) i s t) /\ adds cf I st st' i s t /\
          d_get_or_create cf I s t st = Val (st', Ok i) /\ d_get_or_create cf I s t st' = Val (st', Ok i)))).
  Proof.
    intros HR S0 SA TA. pose proof (lo_wf _ _ _ _ IOK _ _ HR) as W.
    destruct (g_search _ _ s t HR S0 SA TA) as [[E NL]|(i & E & L)].
    - right. split; auto.
      assert (EQ : d_get_or_create cf I s t st = d_create_link I s t st).
      { unfold d_get_or_create. rewrite E. reflexivity. }
      rewrite EQ. destruct (g_create_link _ _ s t HR) as [K|[K|(st' & R' & A & K)]]; auto.
      right; right. exists st', (a_next a). split; auto. split; auto. split; auto.
      unfold d_get_or_create. destruct (g_search _ _ s t R' S0 SA TA) as [[_ NL']|(i & E' & L')].
      + exfalso. apply (NL' (a_next a)). apply A.
      + rewrite E'. cbn [obind]. assert (i = a_next a) as ->; auto.
        destruct (N.eq_dec i (a_next a)) as [|NE]; auto. exfalso. apply (NL i).
        unfold is_link. destruct A as (_ & _ & _ & F). rewrite <- (F i NE). exact L'.
    - left. exists i. split; auto. unfold d_get_or_create. rewrite E. reflexivity.
  Qed.

  Lemma adds_distinct st st' i s t : adds cf I st st' i s t -> distinct_pairs I st ->
    (forall j, ~ is_link I st j s t) -> distinct_pairs I st'.
  Proof.
    intros (_ & N & L & F) D NL x y u v LX LY NZ.
    destruct (N.eq_dec x i) as [->|NX], (N.eq_dec y i) as [->|NY]; auto.
    - exfalso. apply (NL y). unfold is_link in *. rewrite <- (F y NY). congruence.
    - exfalso. apply (NL x). unfold is_link in *. rewrite <- (F x NX). congruence.
    - apply (D x y u v); unfold is_link in *; auto; [rewrite <- (F x NX)|rewrite <- (F y NY)]; auto.
  Qed.

  (** ** usages *)
  Lemma g_usages_w st a i : R st a -> sp_query sp a [any; i; any] -> sp_query sp a [any; any; i] -> 2 * c_iend cf <= c_tmax cf -> linked I st i ->
    exists L1 L2, d_usages cf I st i = Val (Ok (map l_index (L1 ++ L2))) /\
      d_count_usages cf I st i = Val (Ok (N.of_nat (length (L1 ++ L2)))) /\
      d_has_usages cf I st i = Val (match L1 ++ L2 with [] => false | _ => true end) /\
      NoDup L1 /\ NoDup L2 /\
      (forall l, In l L1 <-> li_get I st (l_index l) = Val (Some l) /\ l_index l <> i /\ l_source l = i) /\
      (forall l, In l L2 <-> li_get I st (l_index l) = Val (Some l) /\ l_index l <> i /\ l_target l = i).
  Proof.
    intros HR Q1 Q2 DB K. pose proof (lo_wf _ _ _ _ IOK _ _ HR) as W. pose proof (lo_iend _ _ _ _ IOK _ _ HR) as LE.
    apply (ob_linked _ _ _ HR) in K.
    assert (T2 : 2 * a_top a <= c_tmax cf) by lia.
    destruct (d_usages_ok cf sp I R IOK _ _ _ CF HR Q1 Q2 T2 K) as (L1 & L2 & E & P1 & P2).
    pose proof (d_count_usages_ok cf sp I R IOK _ _ _ CF HR Q1 Q2 T2 K) as C.
    rewrite <- (Permutation_length P1), <- (Permutation_length P2), <- app_length in C.
    exists L1, L2. split; auto. split; auto. split.
    { unfold d_has_usages. rewrite C. cbn [obind]. destruct (L1 ++ L2); reflexivity. }
    assert (OL : forall l, li_get I st (l_index l) = Val (Some l) <-> In l (alinks a)).
    { intros [j s t]. cbn. rewrite (in_alinks a j s t W). apply (ob_link _ _ _ _ _ HR). }
    assert (GEN : forall LL f, Permutation LL (filter (fun l => negb (l_index l =? i) && (f l =? i)) (alinks a)) ->
      NoDup LL /\ forall l, In l LL <-> li_get I st (l_index l) = Val (Some l) /\ l_index l <> i /\ f l = i).
    { intros LL f P. split.
      - eapply Permutation_NoDup; [symmetry; exact P|]. apply NoDup_filter, nodup_alinks.
      - intros l. rewrite OL. rewrite <- N.eqb_neq, <- N.eqb_eq, <- negb_true_iff, <- andb_true_iff. split.
        + intros Hl. apply (Permutation_in _ P) in Hl. now apply filter_In in Hl.
        + intros Hl. apply (Permutation_in _ (Permutation_sym P)). now apply filter_In. }
    destruct (GEN _ _ P1), (GEN _ _ P2). auto.
  Qed.

  Lemma g_usages st a i : R st a -> 2 * c_iend cf <= c_tmax cf -> linked I st i ->
    exists L1 L2, d_usages cf I st i = Val (Ok (map l_index (L1 ++ L2))) /\
      d_count_usages cf I st i = Val (Ok (N.of_nat (length (L1 ++ L2)))) /\
      d_has_usages cf I st i = Val (match L1 ++ L2 with [] => false | _ => true end) /\
      NoDup L1 /\ NoDup L2 /\
      (forall l, In l L1 <-> li_get I st (l_index l) = Val (Some l) /\ l_index l <> i /\ l_source l = i) /\
      (forall l, In l L2 <-> li_get I st (l_index l) = Val (Some l) /\ l_index l <> i /\ l_target l = i).
  Proof. intros HR. apply g_usages_w with a; auto; eapply SPQ; eauto; cbn; try lia; discriminate. Qed.

  Lemma g_usages_none st a i : R st a -> no_link I st i ->
    d_usages cf I st i = Val (Err (NotExists i)) /\ d_count_usages cf I st i = Val (Err (NotExists i)) /\
    d_has_usages cf I st i = Val false.
  Proof. intros HR K. apply (ob_none _ _ _ HR) in K. eapply d_usages_none; eauto. Qed.

  (** ** exist *)
  Lemma g_exist st a i : R st a ->
    exists b, d_exist cf I st i = Val b /\ (b = true <-> is_external cf i = true \/ linked I st i).
  Proof.
    intros HR. pose proof (lo_wf _ _ _ _ IOK _ _ HR) as W. pose proof (lo_iend _ _ _ _ IOK _ _ HR) as LE.
    unfold d_exist. destruct (is_external cf i) eqn:EX; [exists true; tauto|].
    unfold is_internal. rewrite (ok_istart _ CF). pose proof (ok_iend _ CF).
    destruct ((1 <=? i) && (i <=? c_iend cf)) eqn:IN.
    - apply andb_true_iff in IN as [I1 I2]. apply N.leb_le in I1, I2.
      destruct (g_match st a [i] HR) as (L & V & ND & K); cbn; auto; try tauto; try discriminate.
      rewrite (d_found_ok I _ _ _ V). eexists. split; [reflexivity|]. split.
      + destruct L as [|l L]; [discriminate|]. intros _. right.
        destruct (proj1 (K l) (or_introl eq_refl)) as [K1 K2]. cbn in K2. unfold part_match in K2.
        destruct K2 as [K2|K2]; [lia|]. rewrite <- K2 in K1. destruct l as [j s t]. cbn in K2. subst j.
        exists s, t. exact K1.
      + intros [KE|(s & t & KL)]; [discriminate|]. destruct L as [|l L]; [|reflexivity].
        exfalso. apply (proj2 (K (mkLink i s t))). split; auto. cbn. unfold part_match. auto.
    - exists false. split; auto. split; [discriminate|]. intros [KE|KL]; [discriminate|].
      apply (ob_top _ _ HR) in KL. apply andb_false_iff in IN as [IN|IN]; apply N.leb_gt in IN; lia.
  Qed.

  (** ** rebase *)
  Section Rebase.
    Variables (st : S) (a : astate) (old new : N).
    Hypothesis HR : R st a.
    Hypothesis NE : old <> new.
    Hypothesis LO : a_map a old <> None.
    Hypothesis DI : adistinct a.
    Hypothesis NB : forall x, x <> old -> a_map a x <> Some (old, old).
    Let fin (i : N) : option (N * N) :=
      match a_map a i with
      | Some (s, t) => Some (if i =? old then (s, t) else (redirect old new s, redirect old new t))
      | None => None
      end.
    Hypothesis FD : forall i j p, fin i = Some p -> fin j = Some p -> p <> (0, 0) -> i = j.

    Definition isuse (u : link) : Prop :=
      a_map a (l_index u) = Some (l_source u, l_target u) /\ l_index u <> old /\
      (l_source u = old \/ l_target u = old).
    Hypothesis UU : forall a' u, isuse u -> adistinct a' -> a_map a' (l_index u) = Some (l_source u, l_target u) ->
      sp_update sp a' (l_index u) (redirect old new (l_source u)) (redirect old new (l_target u)).
    Hypothesis SS : src_seen st old.
    Hypothesis TS : tgt_seen st old.

    Lemma isuse_step u : isuse u ->
      rebase_steps old new u = [(l_index u, (redirect old new (l_source u), redirect old new (l_target u)))].
    Proof.
      intros (M & X & O). unfold rebase_steps, redirect.
      destruct (N.eqb_spec (l_source u) old) as [E1|E1], (N.eqb_spec (l_target u) old) as [E2|E2]; try reflexivity.
      - exfalso. apply (NB (l_index u) X). rewrite M. congruence.
      - destruct O; congruence.
    Qed.

    (** Part way through: the links of [done] have been redirected. *)
    Lemma rebase_run l : forall dn a', NoDup (map l_index (dn ++ l)) -> (forall u, In u (dn ++ l) -> isuse u) ->
      (forall i, a_map a' i = if in_dec N.eq_dec i (map l_index dn) then fin i else a_map a i) ->
      upd_ok sp a' (flat_map (rebase_steps old new) l) /\
      forall i, a_map (a_updates a' (flat_map (rebase_steps old new) l)) i =
                if in_dec N.eq_dec i (map l_index (dn ++ l)) then fin i else a_map a i.
    Proof.
      induction l as [|u l IH]; intros dn a' ND U M.
      - cbn [flat_map upd_ok]. split; [exact Logic.I|]. rewrite app_nil_r. exact M.
      - assert (Uu : isuse u) by (apply U, in_or_app; right; now left).
        cbn [flat_map]. rewrite (isuse_step u Uu). cbn [app].
        assert (NIu : ~ In (l_index u) (map l_index dn)).
        { rewrite map_app in ND. apply NoDup_app_inv in ND as (_ & _ & ND). intros C. eapply ND; eauto. cbn. auto. }
        assert (Mu : a_map a' (l_index u) = Some (l_source u, l_target u)).
        { rewrite M. destruct (in_dec N.eq_dec (l_index u) (map l_index dn)); [contradiction|]. apply Uu. }
        assert (FU : fin (l_index u) = Some (redirect old new (l_source u), redirect old new (l_target u))).
        { unfold fin. destruct Uu as (E1 & E2 & _). rewrite E1. destruct (N.eqb_spec (l_index u) old); [contradiction|reflexivity]. }
        (* pairs are distinct part way *)
        assert (DM : adistinct a').
        { intros i j p Mi Mj NZ. rewrite M in Mi, Mj.
          assert (DIFF : forall i j, In i (map l_index dn) -> fin i = Some p -> a_map a j = Some p -> i = j).
          { clear i j Mi Mj. intros i j Hi Fi Mj.
            apply in_map_iff in Hi as (w & <- & Hw). assert (Uw : isuse w) by (apply U, in_or_app; auto).
            pose proof Uw as (W1 & W2 & W3).
            assert (FW : p = (redirect old new (l_source w), redirect old new (l_target w))).
            { unfold fin in Fi. rewrite W1 in Fi. destruct (N.eqb_spec (l_index w) old); congruence. }
            assert (FJ : fin j = Some p); [|eapply FD; eauto].
            unfold fin. rewrite Mj, FW. f_equal. destruct (N.eqb_spec j old) as [|J]; [reflexivity|].
            assert (RN : forall v, redirect old new (redirect old new v) = redirect old new v).
            { intros v. unfold redirect. destruct (N.eqb_spec v old) as [->|V].
              - destruct (N.eqb_spec new old); congruence.
              - destruct (N.eqb_spec v old); congruence. }
            now rewrite !RN. }
          destruct (in_dec N.eq_dec i (map l_index dn)) as [Ki|Ki], (in_dec N.eq_dec j (map l_index dn)) as [Kj|Kj].
          - eapply FD; eauto.
          - now apply DIFF.
          - symmetry. now apply DIFF.
          - eapply DI; eauto. }
        specialize (IH (dn ++ [u]) (a_update a' (l_index u) (redirect old new (l_source u)) (redirect old new (l_target u)))).
        rewrite <- app_assoc in IH. cbn [app] in IH.
        destruct IH as [IH1 IH2]; auto.
        { intros i. cbn [a_update a_map]. unfold upd. destruct (N.eqb_spec i (l_index u)) as [->|NI].
          - destruct (in_dec N.eq_dec (l_index u) (map l_index (dn ++ [u]))) as [|C]; [now rewrite FU|].
            exfalso. apply C. rewrite map_app. apply in_or_app. right. now left.
          - rewrite M. destruct (in_dec N.eq_dec i (map l_index dn)) as [K|K], (in_dec N.eq_dec i (map l_index (dn ++ [u]))) as [K'|K']; auto.
            + exfalso. apply K'. rewrite map_app. apply in_or_app. now left.
            + exfalso. rewrite map_app in K'. apply in_app_or in K' as [K'|[K'|[]]]; [contradiction|]. cbn in K'. congruence. }
        split; [|exact IH2]. cbn [upd_ok]. split; [congruence|]. split; [now apply UU|]. exact IH1.
    Qed.

    Lemma rebase_final : exists st' a', R st' a' /\ (forall i, a_map a' i = fin i) /\
      (forall H B (h : uwrite H B) x, exists x', d_rebase_with cf I h old new st x = Val (st', x', Ok tt)) /\
      d_rebase cf I old new st = Val (st', Ok new).
    Proof.
      pose proof (lo_wf _ _ _ _ IOK _ _ HR) as W.
      destruct (exists_range cf sp I R IOK _ _ _ CF HR LO) as (O0 & OA & _).
      destruct SS as (L1 & V1 & ND1 & K1). destruct TS as (L2 & V2 & ND2 & K2).
      set (us := filter (fun u => negb (l_index u =? old)) (L1 ++ L2)).
      assert (OL : forall l, li_get I st (l_index l) = Val (Some l) <-> a_map a (l_index l) = Some (l_source l, l_target l)).
      { intros [j s t]. apply (ob_link _ _ _ _ _ HR). }
      assert (US : forall u, In u us <-> isuse u).
      { intros u. unfold us, isuse. rewrite filter_In, in_app_iff, K1, K2, negb_true_iff, N.eqb_neq, OL. tauto. }
      assert (ND : NoDup us).
      { unfold us. rewrite filter_app. apply NoDup_app_intro; auto using NoDup_filter.
        intros u M1 M2. apply filter_In in M1 as [M1 M3], M2 as [M2 _].
        apply negb_true_iff, N.eqb_neq in M3. apply K1 in M1 as [G1 G2]. apply K2 in M2 as [_ G3].
        apply OL in G1. apply (NB _ M3). congruence. }
      destruct (rebase_run us [] a) as [UO MF].
      { cbn [app]. eapply nodup_idx; [exact ND|]. intros l Hl. apply US in Hl. apply Hl. }
      { intros u Hu. now apply US. }
      { intros i. reflexivity. }
      cbn [app] in MF.
      destruct (d_rebase_with_ok cf sp I R IOK st a old new L1 L2 HR NE LO V1 V2 UO) as (st' & R' & G1 & G2).
      fold us in R'. exists st', (a_updates a (flat_map (rebase_steps old new) us)). split; auto. split; auto.
      intros i. rewrite MF. destruct (in_dec N.eq_dec i (map l_index us)) as [|NI]; auto.
      unfold fin. destruct (a_map a i) as [[s t]|] eqn:E; auto. destruct (N.eqb_spec i old) as [|NO]; auto.
      unfold redirect. destruct (N.eqb_spec s old) as [->|NS].
      - exfalso. apply NI. apply in_map_iff. exists (mkLink i old t). split; auto. apply US. repeat split; auto.
      - destruct (N.eqb_spec t old) as [->|NT]; auto.
        exfalso. apply NI. apply in_map_iff. exists (mkLink i s old). split; auto. apply US. repeat split; auto.
    Qed.
  End Rebase.

  Lemma g_rebase_with_w st a old new : R st a ->
    (forall a' u, user I st old u -> adistinct a' -> a_map a' (l_index u) = Some (l_source u, l_target u) ->
       sp_update sp a' (l_index u) (redirect old new (l_source u)) (redirect old new (l_target u))) ->
    src_seen st old -> tgt_seen st old -> old <> new -> linked I st old -> distinct_pairs I st ->
    (forall x, x <> old -> ~ is_link I st x old old) ->
    (forall i j s t, moved I st old new i s t -> moved I st old new j s t -> (s, t) <> (0, 0) -> i = j) ->
    exists st' a', R st' a' /\ (forall i s t, is_link I st' i s t <-> moved I st old new i s t) /\
      d_rebase cf I old new st = Val (st', Ok new) /\
      (forall H B (h : uwrite H B) x, exists x', d_rebase_with cf I h old new st x = Val (st', x', Ok tt)) /\
      (forall i s t, is_link I st' i s t -> i <> old -> s <> old /\ t <> old).
  Proof.
    intros HR UU SS TS NE LO DP NB FD. apply (ob_linked _ _ _ HR) in LO. apply (ob_distinct _ _ HR) in DP.
    assert (MV : forall i s t, moved I st old new i s t <->
      match a_map a i with
      | Some (s, t) => Some (if i =? old then (s, t) else (redirect old new s, redirect old new t))
      | None => None
      end = Some (s, t)).
    { intros i s t. unfold moved. setoid_rewrite (ob_link _ _ _ _ _ HR). split.
      - intros (s0 & t0 & -> & K). destruct (i =? old); destruct K; congruence.
      - destruct (a_map a i) as [[s0 t0]|]; [|discriminate]. intros [= K]. exists s0, t0. split; auto.
        destruct (i =? old); injection K; auto. }
    destruct (rebase_final st a old new HR NE LO DP) as (st' & a' & R' & M & E0 & E).
    - intros x X K. apply (NB x X). now apply (ob_link _ _ _ _ _ HR).
    - intros i j [s t] K1 K2 NZ. apply (FD i j s t); auto; now apply MV.
    - intros a' u (U1 & U2 & U3). apply UU. split; auto. destruct u; now apply (ob_link _ _ _ _ _ HR).
    - exact SS.
    - exact TS.
    - exists st', a'. split; auto.
      assert (EQ : forall i s t, is_link I st' i s t <-> moved I st old new i s t).
      { intros i s t. rewrite MV, <- M. apply (ob_link _ _ _ _ _ R'). }
      split; auto. split; auto. split; auto. intros i s t L NO. apply EQ in L. destruct L as (s0 & t0 & _ & K).
      destruct (N.eqb_spec i old) as [|]; [contradiction|]. destruct K as [-> ->]. unfold redirect.
      split; [destruct (N.eqb_spec s0 old)|destruct (N.eqb_spec t0 old)]; congruence.
  Qed.
  Lemma g_rebase_with st a old new : R st a -> old <> new -> linked I st old -> distinct_pairs I st ->
    (forall x, x <> old -> ~ is_link I st x old old) ->
    (forall i j s t, moved I st old new i s t -> moved I st old new j s t -> (s, t) <> (0, 0) -> i = j) ->
    exists st' a', R st' a' /\ (forall i s t, is_link I st' i s t <-> moved I st old new i s t) /\
      d_rebase cf I old new st = Val (st', Ok new) /\
      (forall H B (h : uwrite H B) x, exists x', d_rebase_with cf I h old new st x = Val (st', x', Ok tt)) /\
      (forall i s t, is_link I st' i s t -> i <> old -> s <> old /\ t <> old).
  Proof.
    intros HR NE LO. pose proof LO as LO'. apply (ob_linked _ _ _ HR) in LO'.
    destruct (exists_range cf sp I R IOK _ _ _ CF HR LO') as (O0 & OA & _).
    apply (g_rebase_with_w st a); auto; [|eapply visits_src; eauto|eapply visits_tgt; eauto].
    intros a' u _ D _. apply SPU. now apply adistinct_detachable.
  Qed.
  Lemma g_rebase st a old new : R st a -> old <> new -> linked I st old -> distinct_pairs I st ->
    (forall x, x <> old -> ~ is_link I st x old old) ->
    (forall i j s t, moved I st old new i s t -> moved I st old new j s t -> (s, t) <> (0, 0) -> i = j) ->
    exists st' a', R st' a' /\ d_rebase cf I old new st = Val (st', Ok new) /\
      (forall i s t, is_link I st' i s t <-> moved I st old new i s t) /\
      (forall i s t, is_link I st' i s t -> i <> old -> s <> old /\ t <> old).
  Proof.
    intros HR NE LO DP NB FD. destruct (g_rebase_with st a old new HR NE LO DP NB FD) as (st' & a' & R' & A & B & _ & C).
    exists st', a'. auto.
  Qed.
End Claims.
