(** Refinement of the modifying operations of the single-memory store. *)
From Coq Require Import NArith List Bool Lia Permutation Sorted.
From Verif Require Import Base Trees Lists TreeInv Spec Iface UnitModel UnitInv.
Import ListNotations.
Open Scope N_scope.

(** One tree of the store with its node set, and zero fields outside. *)
Definition src_half (st : ust) (P : N -> Prop) : Prop :=
  tree_inv (key_src (u_data st)) (u_src st) (h_sroot st) P /\
  (forall i, i <> 0 -> ~ P i -> u_src st i = nd0).
Definition tgt_half (st : ust) (P : N -> Prop) : Prop :=
  tree_inv (key_tgt (u_data st)) (u_tgt st) (h_troot st) P /\
  (forall i, i <> 0 -> ~ P i -> u_tgt st i = nd0).

Lemma psrc_ext a a' i : a_map a' i = a_map a i -> (psrc a i <-> psrc a' i).
Proof. unfold psrc. intros ->. tauto. Qed.
Lemma ptgt_ext a a' i : a_map a' i = a_map a i -> (ptgt a i <-> ptgt a' i).
Proof. unfold ptgt. intros ->. tauto. Qed.

Lemma urep_ext cf st a a' :
  a_top a' = a_top a -> a_free a' = a_free a -> (forall i, a_map a' i = a_map a i) ->
  urep cf st a -> urep cf st a'.
Proof.
  intros E1 E2 E3 R. destruct R. constructor; rewrite ?E1, ?E2; auto.
  - intros i. rewrite E3. auto.
  - intros i p. rewrite E3. auto.
  - eapply tree_inv_ext; [| | |exact ur_src]; auto. intros i. apply psrc_ext, E3.
  - intros i Hi K. apply ur_src0; auto. intros K'. apply K. apply (psrc_ext a a'); auto.
  - eapply tree_inv_ext; [| | |exact ur_tgt]; auto. intros i. apply ptgt_ext, E3.
  - intros i Hi K. apply ur_tgt0; auto. intros K'. apply K. apply (ptgt_ext a a'); auto.
Qed.

(** Only the oracle differs. *)
Lemma urep_orc cf st a o : urep cf st a -> urep cf (mkU (u_len st) o (u_data st) (u_src st) (u_tgt st)) a.
Proof. intros R. destruct R. constructor; auto. Qed.

Section Ops.
  Variable cf : cfg.
  Hypothesis CF : cfg_ok cf.
  Variable tops : tree_ops.
  Hypothesis TOK : tree_ops_ok tops.
  Variable lops : list_ops.
  Hypothesis LOK : list_ops_ok lops.

  (** ** Tree halves *)
  Lemma src_detach st P i b :
    u_header st = Val tt -> src_half st P -> i <> 0 -> (b = true <-> P i) ->
    (b = true -> forall j, P j -> key_src (u_data st) j = key_src (u_data st) i -> j = i) ->
    exists c, when b (fun st => u_detach_source tops st i) st = Val (set_src st c) /\
      src_half (set_src st c) (fun j => j <> i /\ P j) /\
      nl (c 0) = nl (u_src st 0) /\ nr (c 0) = nr (u_src st 0).
  Proof.
    intros HH [HT HZ] I0 HB HD. unfold when. destruct b.
    - assert (PI : P i) by now apply HB.
      destruct (inv_detach tops TOK _ _ _ _ _ HT PI (HD eq_refl)) as (c & r & E & T1 & Z1 & F1).
      unfold u_detach_source. rewrite HH. cbn [obind]. rewrite E. cbn [obind].
      assert (P0 : ~ P 0) by (intros K; apply (tree_inv_nonzero _ _ _ _ _ HT K); auto).
      exists (set_sroot c r). split; [reflexivity|]. split; [split|].
      + unfold h_sroot, set_sroot. cbn [u_data u_src set_src]. rewrite upd_same. cbn [nz].
        eapply tree_inv_ext; [| | |exact T1]; [tauto|auto|].
        intros j [_ Pj]. apply upd_other. intros ->; auto.
      + intros j J0 K. cbn [u_src set_src]. unfold set_sroot. rewrite upd_other by auto.
        destruct (N.eq_dec j i) as [->|NE]; auto.
        assert (~ P j) by tauto. rewrite F1 by auto. apply HZ; auto.
      + unfold set_sroot. rewrite upd_same. cbn [nl nr]. rewrite F1 by auto. auto.
    - assert (PI : ~ P i) by (intros K; apply HB in K; discriminate).
      exists (u_src st). split; [destruct st; reflexivity|]. split; [split|auto].
      + eapply tree_inv_ext; [| | |exact HT]; auto. intros j. split; [|tauto].
        intros Pj. split; auto. intros ->; auto.
      + intros j J0 K. cbn [u_src set_src]. apply HZ; auto. intros Pj. apply K. split; auto.
        intros ->; auto.
  Qed.

  Lemma tgt_detach st P i b :
    u_header st = Val tt -> tgt_half st P -> i <> 0 -> (b = true <-> P i) ->
    (b = true -> forall j, P j -> key_tgt (u_data st) j = key_tgt (u_data st) i -> j = i) ->
    exists c, when b (fun st => u_detach_target tops st i) st = Val (set_tgt st c) /\
      tgt_half (set_tgt st c) (fun j => j <> i /\ P j) /\
      nr (c 0) = nr (u_tgt st 0) /\ nz (c 0) = nz (u_tgt st 0).
  Proof.
    intros HH [HT HZ] I0 HB HD. unfold when. destruct b.
    - assert (PI : P i) by now apply HB.
      destruct (inv_detach tops TOK _ _ _ _ _ HT PI (HD eq_refl)) as (c & r & E & T1 & Z1 & F1).
      unfold u_detach_target. rewrite HH. cbn [obind]. rewrite E. cbn [obind].
      assert (P0 : ~ P 0) by (intros K; apply (tree_inv_nonzero _ _ _ _ _ HT K); auto).
      exists (set_troot c r). split; [reflexivity|]. split; [split|].
      + unfold h_troot, set_troot. cbn [u_data u_tgt set_tgt]. rewrite upd_same. cbn [nl].
        eapply tree_inv_ext; [| | |exact T1]; [tauto|auto|].
        intros j [_ Pj]. apply upd_other. intros ->; auto.
      + intros j J0 K. cbn [u_tgt set_tgt]. unfold set_troot. rewrite upd_other by auto.
        destruct (N.eq_dec j i) as [->|NE]; auto.
        assert (~ P j) by tauto. rewrite F1 by auto. apply HZ; auto.
      + unfold set_troot. rewrite upd_same. cbn [nz nr]. rewrite F1 by auto. auto.
    - assert (PI : ~ P i) by (intros K; apply HB in K; discriminate).
      exists (u_tgt st). split; [destruct st; reflexivity|]. split; [split|auto].
      + eapply tree_inv_ext; [| | |exact HT]; auto. intros j. split; [|tauto].
        intros Pj. split; auto. intros ->; auto.
      + intros j J0 K. cbn [u_tgt set_tgt]. apply HZ; auto. intros Pj. apply K. split; auto.
        intros ->; auto.
  Qed.

  Lemma src_attach st P i (b : bool) :
    u_header st = Val tt -> src_half st P -> i <> 0 -> ~ P i ->
    exists c, when b (fun st => u_attach_source tops st i) st = Val (set_src st c) /\
      src_half (set_src st c) (fun j => (j = i /\ b = true) \/ P j) /\
      nl (c 0) = nl (u_src st 0) /\ nr (c 0) = nr (u_src st 0).
  Proof.
    intros HH [HT HZ] I0 NP. unfold when. destruct b.
    - destruct (inv_attach tops TOK _ _ _ _ i HT I0 NP (HZ _ I0 NP)) as (c & r & E & T1 & F1).
      unfold u_attach_source. rewrite HH. cbn [obind]. rewrite E. cbn [obind].
      assert (P0 : ~ P 0) by (intros K; apply (tree_inv_nonzero _ _ _ _ _ HT K); auto).
      exists (set_sroot c r). split; [reflexivity|]. split; [split|].
      + unfold h_sroot, set_sroot. cbn [u_data u_src set_src]. rewrite upd_same. cbn [nz].
        eapply tree_inv_ext; [| | |exact T1]; [tauto|auto|].
        intros j Pj. apply upd_other. intros ->. destruct Pj as [K|K]; [congruence|auto].
      + intros j J0 K. cbn [u_src set_src]. unfold set_sroot. rewrite upd_other by auto.
        rewrite F1 by tauto. apply HZ; tauto.
      + unfold set_sroot. rewrite upd_same. cbn [nl nr]. rewrite F1 by auto. auto.
    - exists (u_src st). split; [destruct st; reflexivity|]. split; [split|auto].
      + eapply tree_inv_ext; [| | |exact HT]; auto. intros j. split; [tauto|].
        intros [[_ K]|K]; [discriminate|auto].
      + intros j J0 K. cbn [u_src set_src]. apply HZ; tauto.
  Qed.

  Lemma tgt_attach st P i (b : bool) :
    u_header st = Val tt -> tgt_half st P -> i <> 0 -> ~ P i ->
    exists c, when b (fun st => u_attach_target tops st i) st = Val (set_tgt st c) /\
      tgt_half (set_tgt st c) (fun j => (j = i /\ b = true) \/ P j) /\
      nr (c 0) = nr (u_tgt st 0) /\ nz (c 0) = nz (u_tgt st 0).
  Proof.
    intros HH [HT HZ] I0 NP. unfold when. destruct b.
    - destruct (inv_attach tops TOK _ _ _ _ i HT I0 NP (HZ _ I0 NP)) as (c & r & E & T1 & F1).
      unfold u_attach_target. rewrite HH. cbn [obind]. rewrite E. cbn [obind].
      assert (P0 : ~ P 0) by (intros K; apply (tree_inv_nonzero _ _ _ _ _ HT K); auto).
      exists (set_troot c r). split; [reflexivity|]. split; [split|].
      + unfold h_troot, set_troot. cbn [u_data u_tgt set_tgt]. rewrite upd_same. cbn [nl].
        eapply tree_inv_ext; [| | |exact T1]; [tauto|auto|].
        intros j Pj. apply upd_other. intros ->. destruct Pj as [K|K]; [congruence|auto].
      + intros j J0 K. cbn [u_tgt set_tgt]. unfold set_troot. rewrite upd_other by auto.
        rewrite F1 by tauto. apply HZ; tauto.
      + unfold set_troot. rewrite upd_same. cbn [nz nr]. rewrite F1 by auto. auto.
    - exists (u_tgt st). split; [destruct st; reflexivity|]. split; [split|auto].
      + eapply tree_inv_ext; [| | |exact HT]; auto. intros j. split; [tauto|].
        intros [[_ K]|K]; [discriminate|auto].
      + intros j J0 K. cbn [u_tgt set_tgt]. apply HZ; tauto.
  Qed.

  (** Changing the data of a node outside a tree keeps the tree. *)
  Lemma src_half_data st P i p : src_half st P -> ~ P i ->
    src_half (set_data st (upd (u_data st) i p)) P.
  Proof.
    intros [HT HZ] NP. split; [|exact HZ]. cbn [u_src u_data set_data h_sroot].
    eapply tree_inv_ext; [| | |exact HT]; try tauto.
    intros j Pj. unfold key_src. rewrite upd_other by (intros ->; auto). reflexivity.
  Qed.
  Lemma tgt_half_data st P i p : tgt_half st P -> ~ P i ->
    tgt_half (set_data st (upd (u_data st) i p)) P.
  Proof.
    intros [HT HZ] NP. split; [|exact HZ]. cbn [u_tgt u_data set_data h_troot].
    eapply tree_inv_ext; [| | |exact HT]; try tauto.
    intros j Pj. unfold key_tgt. rewrite upd_other by (intros ->; auto). reflexivity.
  Qed.

  Lemma neqb0 x : negb (x =? 0) = true <-> x <> 0.
  Proof. destruct (N.eqb_spec x 0); simpl; split; congruence. Qed.

  Definition distinct_map (m : N -> option (N * N)) : Prop :=
    forall i j p, m i = Some p -> m j = Some p -> p <> (0, 0) -> i = j.

  (** ** update *)
  Lemma u_relink_ok st a i os ot s t :
    urep cf st a -> a_map a i = Some (os, ot) -> detachable a i ->
    exists st', u_relink tops st i os ot s t = Val st' /\ urep cf st' (a_update a i s t) /\
      u_len st' = u_len st /\ u_orc st' = u_orc st.
  Proof.
    intros R EM DET.
    assert (DOM : 1 <= i <= a_top a /\ ~ In i (a_free a)) by (apply (ur_dom _ _ _ R); congruence).
    assert (I0 : i <> 0) by lia.
    pose proof (ur_len _ _ _ R) as HL.
    assert (HH : u_header st = Val tt) by (eapply u_header_ok; eauto).
    assert (PS : negb (os =? 0) = true <-> psrc a i).
    { rewrite neqb0. split; [intros; exists os, ot; auto|]. intros (x & y & E & K). congruence. }
    assert (PT : negb (ot =? 0) = true <-> ptgt a i).
    { rewrite neqb0. split; [intros; exists os, ot; auto|]. intros (x & y & E & K). congruence. }
    unfold u_relink.
    destruct (src_detach st (psrc a) i (negb (os =? 0)) HH) as (c1 & E1 & H1 & A1 & B1); auto.
    { split; [apply (ur_src _ _ _ R)|apply (ur_src0 _ _ _ R)]. }
    { intros NB j (js & jt & J1 & J2) K.
      rewrite (key_src_data _ _ _ _ _ _ R J1), (key_src_data _ _ _ _ _ _ R EM) in K.
      destruct DET as [D|D]; [apply neqb0 in NB; congruence|].
      inversion K; subst. eapply D; eauto. }
    rewrite E1. cbn [obind]. set (st1 := set_src st c1) in *.
    assert (TH1 : tgt_half st1 (ptgt a)).
    { split; [apply (ur_tgt _ _ _ R)|apply (ur_tgt0 _ _ _ R)]. }
    destruct (tgt_detach st1 (ptgt a) i (negb (ot =? 0)) HH) as (c2 & E2 & H2 & A2 & B2); auto.
    { intros NB j (js & jt & J1 & J2) K.
      change (u_data st1) with (u_data st) in K.
      rewrite (key_tgt_data _ _ _ _ _ _ R J1), (key_tgt_data _ _ _ _ _ _ R EM) in K.
      destruct DET as [D|D]; [apply neqb0 in NB; congruence|].
      inversion K; subst. eapply D; eauto. }
    rewrite E2. cbn [obind]. set (st2 := set_tgt st1 c2) in *.
    rewrite rd_ok by (change (u_len st2) with (u_len st); lia). cbn [obind].
    set (st3 := set_data st2 (upd (u_data st2) i (s, t))).
    assert (SH3 : src_half st3 (fun j => j <> i /\ psrc a j)).
    { apply src_half_data; [exact H1|tauto]. }
    assert (TH3 : tgt_half st3 (fun j => j <> i /\ ptgt a j)).
    { apply tgt_half_data; [exact H2|tauto]. }
    destruct (src_attach st3 _ i (negb (s =? 0)) HH SH3 I0) as (c4 & E4 & H4 & A4 & B4); [tauto|].
    rewrite E4. cbn [obind]. set (st4 := set_src st3 c4) in *.
    assert (TH4 : tgt_half st4 (fun j => j <> i /\ ptgt a j)) by exact TH3.
    destruct (tgt_attach st4 _ i (negb (t =? 0)) HH TH4 I0) as (c5 & E5 & H5 & A5 & B5); [tauto|].
    rewrite E5. eexists. split; [reflexivity|]. split; [|split; reflexivity].
    assert (D0 : u_data st3 0 = u_data st 0) by (apply upd_other; auto).
    assert (XS : forall j, ((j = i /\ negb (s =? 0) = true) \/ (j <> i /\ psrc a j)) <-> psrc (a_update a i s t) j).
    { intros j. rewrite neqb0. unfold psrc. simpl. unfold upd. destruct (N.eqb_spec j i) as [->|NE].
      - split; [intros [[_ K]|[K _]]; [exists s, t; auto|congruence]|].
        intros (x & y & E & K). inversion E; subst. auto.
      - split; [intros [[K _]|[_ K]]; [congruence|exact K]|]. intros K; right; auto. }
    assert (XT : forall j, ((j = i /\ negb (t =? 0) = true) \/ (j <> i /\ ptgt a j)) <-> ptgt (a_update a i s t) j).
    { intros j. rewrite neqb0. unfold ptgt. simpl. unfold upd. destruct (N.eqb_spec j i) as [->|NE].
      - split; [intros [[_ K]|[K _]]; [exists s, t; auto|congruence]|].
        intros (x & y & E & K). inversion E; subst. auto.
      - split; [intros [[K _]|[_ K]]; [congruence|exact K]|]. intros K; right; auto. }
    constructor.
    - unfold h_alloc. cbn [u_data set_tgt set_src]. change (u_data st4) with (u_data st3).
      rewrite D0. apply (ur_alloc _ _ _ R).
    - apply (ur_iend _ _ _ R).
    - apply (ur_len _ _ _ R).
    - unfold h_reserved. cbn [u_data set_tgt set_src]. change (u_data st4) with (u_data st3). rewrite D0. apply (ur_res1 _ _ _ R).
    - unfold h_reserved. cbn [u_data set_tgt set_src]. change (u_data st4) with (u_data st3). rewrite D0. apply (ur_res2 _ _ _ R).
    - replace (u_lhdr (set_tgt st4 c5)) with (u_lhdr st).
      + cbn [a_free a_update]. eapply lrep_ext; [|apply (ur_list _ _ _ R)].
        intros y Hy. apply upd_other. intros ->. tauto.
      + unfold u_lhdr, h_first, h_last, h_free. cbn [u_src u_tgt set_tgt set_src st4].
        rewrite A5, B4, A4. cbn [u_src u_tgt st4 st3 st2 st1 set_data set_src set_tgt].
        rewrite A1, B1, A2. reflexivity.
    - intros j. cbn [a_map a_update a_free a_top]. rewrite upd_none_iff by discriminate.
      rewrite (ur_dom _ _ _ R). split; [intros [->|K]; auto|auto].
    - apply (ur_free _ _ _ R).
    - intros j p. cbn [a_map a_update u_data set_tgt set_src st4 st3 set_data st2]. unfold upd.
      destruct (N.eqb_spec j i) as [->|NE]; [congruence|]. apply (ur_data _ _ _ R).
    - destruct H4 as [H4 _]. eapply tree_inv_ext; [| | |exact H4]; auto.
    - intros j J0 K. destruct H4 as [_ H4]. apply H4; auto. intros K'. apply K. now apply XS.
    - destruct H5 as [H5 _]. eapply tree_inv_ext; [| | |exact H5]; auto.
    - intros j J0 K. destruct H5 as [_ H5]. apply H5; auto. intros K'. apply K. now apply XT.
    - intros j Hj. cbn [a_top a_update] in Hj. cbn [u_data set_tgt set_src st4 st3 set_data st2].
      rewrite upd_other by lia. apply (ur_beyond _ _ _ R). exact Hj.
    - cbn [u_tgt set_tgt]. rewrite B5. cbn [u_tgt st4 st3 st2 set_src set_data set_tgt].
      rewrite B2. apply (ur_res8 _ _ _ R).
  Qed.

  (** ** free list *)
  Lemma list_half_frame st h d :
    (forall y, y <> 0 -> u_src (set_lhdr st h d) y = u_src st y) /\
    (forall y, y <> 0 -> u_tgt (set_lhdr st h d) y = u_tgt st y) /\
    h_sroot (set_lhdr st h d) = h_sroot st /\ h_troot (set_lhdr st h d) = h_troot st /\
    nz (u_tgt (set_lhdr st h d) 0) = nz (u_tgt st 0) /\ u_lhdr (set_lhdr st h d) = h.
  Proof.
    unfold u_lhdr, h_first, h_last, h_free, h_sroot, h_troot. cbn [u_src u_tgt set_lhdr].
    rewrite !upd_same. cbn [nl nr nz]. repeat split.
    - intros. now apply upd_other.
    - intros. now apply upd_other.
    - destruct h; reflexivity.
  Qed.

  (** Taking an index out of the free list; the index becomes an empty link. *)
  Lemma u_unused_detach_ok st a i :
    urep cf st a -> In i (a_free a) ->
    exists st', u_unused_detach lops st i = Val st' /\
      urep cf st' (mkA (a_top a) (lremove i (a_free a)) (upd (a_map a) i (Some (0, 0)))) /\
      u_len st' = u_len st /\ u_orc st' = u_orc st.
  Proof.
    intros R HI. unfold u_unused_detach.
    destruct (l_detach_ok _ LOK _ _ _ _ (ur_list _ _ _ R) HI) as (h & d & E & L1 & L2 & L3).
    rewrite E. cbn [obind]. eexists. split; [reflexivity|]. split; [|split; reflexivity].
    destruct (list_half_frame st h d) as (F1 & F2 & F3 & F4 & F5 & F6).
    assert (IR := ur_free _ _ _ R _ HI).
    assert (IN := ur_none _ _ _ _ R HI).
    assert (Z0 : ~ In 0 (a_free a)) by (intros K; apply (ur_free _ _ _ R) in K; lia).
    assert (D0 : d 0 = u_data st 0) by auto.
    assert (DM : forall j p, a_map a j = Some p -> d j = u_data st j).
    { intros j p K. apply L3. assert (K' : a_map a j <> None) by congruence.
      apply (ur_dom _ _ _ R) in K'. tauto. }
    assert (XS : forall j, psrc a j <-> psrc (mkA (a_top a) (lremove i (a_free a)) (upd (a_map a) i (Some (0, 0)))) j).
    { intros j. unfold psrc. cbn [a_map]. unfold upd. destruct (N.eqb_spec j i) as [->|]; [|tauto].
      rewrite IN. split; intros (x & y & K1 & K2); congruence. }
    assert (XT : forall j, ptgt a j <-> ptgt (mkA (a_top a) (lremove i (a_free a)) (upd (a_map a) i (Some (0, 0)))) j).
    { intros j. unfold ptgt. cbn [a_map]. unfold upd. destruct (N.eqb_spec j i) as [->|]; [|tauto].
      rewrite IN. split; intros (x & y & K1 & K2); congruence. }
    constructor; cbn [a_top a_free a_map].
    - unfold h_alloc. cbn [u_data set_lhdr]. rewrite D0. apply R.
    - apply R.
    - apply R.
    - unfold h_reserved. cbn [u_data set_lhdr]. rewrite D0. apply R.
    - unfold h_reserved. cbn [u_data set_lhdr u_len]. rewrite D0. apply R.
    - rewrite F6. exact L1.
    - intros j. rewrite upd_none_iff by discriminate. rewrite (ur_dom _ _ _ R), in_lremove.
      destruct (N.eq_dec j i) as [->|]; [tauto|]. tauto.
    - intros j K. apply in_lremove in K. apply (ur_free _ _ _ R). tauto.
    - intros j p. cbn [u_data set_lhdr]. unfold upd. destruct (N.eqb_spec j i) as [->|].
      + congruence.
      + intros K. rewrite (DM _ _ K). now apply (ur_data _ _ _ R).
    - rewrite F3. eapply tree_inv_ext; [exact XS| | |apply (ur_src _ _ _ R)].
      + intros j (x & y & K1 & K2). unfold key_src. cbn [u_data set_lhdr]. now rewrite (DM _ _ K1).
      + intros j K. apply F1. apply (ur_psrc_range _ _ _ _ R) in K. lia.
    - intros j J0 K. rewrite F1 by auto. apply (ur_src0 _ _ _ R); auto. now rewrite XS.
    - rewrite F4. eapply tree_inv_ext; [exact XT| | |apply (ur_tgt _ _ _ R)].
      + intros j (x & y & K1 & K2). unfold key_tgt. cbn [u_data set_lhdr]. now rewrite (DM _ _ K1).
      + intros j K. apply F2. apply (ur_ptgt_range _ _ _ _ R) in K. lia.
    - intros j J0 K. rewrite F2 by auto. apply (ur_tgt0 _ _ _ R); auto. now rewrite XT.
    - intros j Hj. cbn [u_data set_lhdr]. rewrite L3 by (intros K; apply (ur_free _ _ _ R) in K; lia).
      apply (ur_beyond _ _ _ R). exact Hj.
    - rewrite F5. apply R.
  Qed.

  (** Putting an empty link below the top into the free list. *)
  Lemma u_unused_attach_ok st a i :
    urep cf st a -> a_map a i = Some (0, 0) ->
    exists st', u_unused_attach lops st i = Val st' /\
      urep cf st' (mkA (a_top a) (i :: a_free a) (upd (a_map a) i None)) /\
      u_len st' = u_len st /\ u_orc st' = u_orc st.
  Proof.
    intros R EM.
    assert (DOM : 1 <= i <= a_top a /\ ~ In i (a_free a)) by (apply (ur_dom _ _ _ R); congruence).
    destruct DOM as [IR NI].
    unfold u_unused_attach.
    destruct (l_attach_ok _ LOK _ _ _ i (ur_list _ _ _ R)) as (h & d & E & L1 & L3); [lia|auto|].
    rewrite E. cbn [obind]. eexists. split; [reflexivity|]. split; [|split; reflexivity].
    destruct (list_half_frame st h d) as (F1 & F2 & F3 & F4 & F5 & F6).
    assert (Z0 : ~ In 0 (a_free a)) by (intros K; apply (ur_free _ _ _ R) in K; lia).
    assert (D0 : d 0 = u_data st 0) by (apply L3; [lia|auto]).
    assert (DM : forall j p, j <> i -> a_map a j = Some p -> d j = u_data st j).
    { intros j p N K. apply L3; auto. assert (K' : a_map a j <> None) by congruence.
      apply (ur_dom _ _ _ R) in K'. tauto. }
    assert (XS : forall j, psrc a j <-> psrc (mkA (a_top a) (i :: a_free a) (upd (a_map a) i None)) j).
    { intros j. unfold psrc. cbn [a_map]. unfold upd. destruct (N.eqb_spec j i) as [->|]; [|tauto].
      rewrite EM. split; intros (x & y & K1 & K2); congruence. }
    assert (XT : forall j, ptgt a j <-> ptgt (mkA (a_top a) (i :: a_free a) (upd (a_map a) i None)) j).
    { intros j. unfold ptgt. cbn [a_map]. unfold upd. destruct (N.eqb_spec j i) as [->|]; [|tauto].
      rewrite EM. split; intros (x & y & K1 & K2); congruence. }
    constructor; cbn [a_top a_free a_map].
    - unfold h_alloc. cbn [u_data set_lhdr]. rewrite D0. apply R.
    - apply R.
    - apply R.
    - unfold h_reserved. cbn [u_data set_lhdr]. rewrite D0. apply R.
    - unfold h_reserved. cbn [u_data set_lhdr u_len]. rewrite D0. apply R.
    - rewrite F6. exact L1.
    - intros j. rewrite upd_none_none. rewrite (ur_dom _ _ _ R). simpl. intuition.
    - intros j [<-|K]; [lia|]. now apply (ur_free _ _ _ R).
    - intros j p. cbn [u_data set_lhdr]. unfold upd. destruct (N.eqb_spec j i) as [->|]; [congruence|].
      intros K. rewrite (DM _ _ n K). now apply (ur_data _ _ _ R).
    - rewrite F3. eapply tree_inv_ext; [exact XS| | |apply (ur_src _ _ _ R)].
      + intros j (x & y & K1 & K2). unfold key_src. cbn [u_data set_lhdr]. rewrite (DM j (x, y)); auto. congruence.
      + intros j K. apply F1. apply (ur_psrc_range _ _ _ _ R) in K. lia.
    - intros j J0 K. rewrite F1 by auto. apply (ur_src0 _ _ _ R); auto. now rewrite XS.
    - rewrite F4. eapply tree_inv_ext; [exact XT| | |apply (ur_tgt _ _ _ R)].
      + intros j (x & y & K1 & K2). unfold key_tgt. cbn [u_data set_lhdr]. rewrite (DM j (x, y)); auto. congruence.
      + intros j K. apply F2. apply (ur_ptgt_range _ _ _ _ R) in K. lia.
    - intros j J0 K. rewrite F2 by auto. apply (ur_tgt0 _ _ _ R); auto. now rewrite XT.
    - intros j Hj. cbn [u_data set_lhdr]. rewrite L3; [apply (ur_beyond _ _ _ R); exact Hj|lia|].
      intros K; apply (ur_free _ _ _ R) in K; lia.
    - rewrite F5. apply R.
  Qed.

  (** Dropping the top index, an empty link, by lowering [allocated]. *)
  Lemma u_lower_ok st a :
    urep cf st a -> 1 <= a_top a -> a_map a (a_top a) = Some (0, 0) ->
    urep cf (set_alloc st (a_top a - 1)) (mkA (a_top a - 1) (a_free a) (upd (a_map a) (a_top a) None)).
  Proof.
    intros R T1 EM. set (n := a_top a) in *.
    assert (DOM : 1 <= n <= a_top a /\ ~ In n (a_free a)) by (apply (ur_dom _ _ _ R); congruence).
    destruct DOM as [_ NI].
    assert (DU : forall j, j <> 0 -> u_data (set_alloc st (n - 1)) j = u_data st j).
    { intros. apply upd_other; auto. }
    assert (XS : forall j, psrc a j <-> psrc (mkA (n - 1) (a_free a) (upd (a_map a) n None)) j).
    { intros j. unfold psrc. cbn [a_map]. unfold upd. destruct (N.eqb_spec j n) as [->|]; [|tauto].
      rewrite EM. split; intros (x & y & K1 & K2); congruence. }
    assert (XT : forall j, ptgt a j <-> ptgt (mkA (n - 1) (a_free a) (upd (a_map a) n None)) j).
    { intros j. unfold ptgt. cbn [a_map]. unfold upd. destruct (N.eqb_spec j n) as [->|]; [|tauto].
      rewrite EM. split; intros (x & y & K1 & K2); congruence. }
    pose proof (ur_iend _ _ _ R). pose proof (ur_len _ _ _ R).
    constructor; cbn [a_top a_free a_map].
    - unfold h_alloc, set_alloc. cbn [u_data set_data]. rewrite upd_same. reflexivity.
    - fold n in H. lia.
    - cbn [u_len set_alloc set_data]. fold n in H0. lia.
    - unfold h_reserved, set_alloc. cbn [u_data set_data]. rewrite upd_same. apply R.
    - unfold h_reserved, set_alloc. cbn [u_data set_data u_len]. rewrite upd_same. apply R.
    - eapply lrep_ext; [|apply (ur_list _ _ _ R)]. intros y Hy. apply DU.
      apply (ur_free _ _ _ R) in Hy. lia.
    - intros j. rewrite upd_none_none, (ur_dom _ _ _ R). fold n. split.
      + intros [K1 [K2 K3]]. split; [lia|auto].
      + intros [K1 K2]. split; [lia|]. split; [lia|auto].
    - intros j K. pose proof (ur_free _ _ _ R _ K). fold n in H1.
      assert (j <> n) by congruence. lia.
    - intros j p. unfold upd. destruct (N.eqb_spec j n); [congruence|]. intros K.
      assert (K' : a_map a j <> None) by congruence. apply (ur_dom _ _ _ R) in K'.
      rewrite DU by lia. now apply (ur_data _ _ _ R).
    - eapply tree_inv_ext; [exact XS| | |apply (ur_src _ _ _ R)]; auto.
      intros j K. unfold key_src. rewrite DU; auto. apply (ur_psrc_range _ _ _ _ R) in K. lia.
    - intros j J0 K. apply (ur_src0 _ _ _ R); auto. now rewrite XS.
    - eapply tree_inv_ext; [exact XT| | |apply (ur_tgt _ _ _ R)]; auto.
      intros j K. unfold key_tgt. rewrite DU; auto. apply (ur_ptgt_range _ _ _ _ R) in K. lia.
    - intros j J0 K. apply (ur_tgt0 _ _ _ R); auto. now rewrite XT.
    - intros j Hj. rewrite DU by lia. destruct (N.eq_dec j n) as [->|].
      + now apply (ur_data _ _ _ R).
      + apply (ur_beyond _ _ _ R). fold n. lia.
    - apply R.
  Qed.

  Lemma top_of_ext m m' n : (forall i, i <= N.of_nat n -> m' i = m i) -> top_of m' n = top_of m n.
  Proof.
    induction n as [|n IH]; intros E; [reflexivity|]. cbn [top_of]. rewrite E by lia.
    rewrite IH; [reflexivity|]. intros; apply E; lia.
  Qed.

  Lemma filter_lremove f x l : f x = false -> filter f (lremove x l) = filter f l.
  Proof.
    intros E. unfold lremove. induction l as [|y l IH]; simpl; [reflexivity|].
    destruct (N.eq_dec x y) as [->|NE]; simpl; [rewrite E; auto|]. destruct (f y); congruence.
  Qed.

  (** The trim loop. *)
  Lemma u_trim_ok : forall n fuel st a,
    urep cf st a -> N.to_nat (a_top a) = n -> (n < fuel)%nat ->
    exists st', u_trim lops fuel st = Val st' /\
      urep cf st' (mkA (top_of (a_map a) n)
                      (filter (fun x => x <? top_of (a_map a) n) (a_free a)) (a_map a)) /\
      u_len st' = u_len st /\ u_orc st' = u_orc st.
  Proof.
    induction n as [|n IH]; intros fuel st a R TN F; destruct fuel as [|fuel]; try lia; cbn [u_trim].
    - rewrite (u_header_ok _ _ _ R). cbn [obind]. rewrite (ur_alloc _ _ _ R).
      assert (Z : a_top a = 0) by lia. rewrite Z. cbn [N.ltb N.compare obind negb].
      exists st. split; [reflexivity|]. split; [|auto]. cbn [top_of].
      eapply urep_ext; [| | |exact R]; auto. cbn [a_free].
      destruct (a_free a) as [|x l] eqn:EF; [reflexivity|]. exfalso.
      assert (K : In x (a_free a)) by (rewrite EF; now left). apply (ur_free _ _ _ R) in K. lia.
    - rewrite (u_header_ok _ _ _ R). cbn [obind]. rewrite (ur_alloc _ _ _ R).
      assert (TE : a_top a = N.of_nat (S n)) by lia.
      destruct (N.ltb_spec 0 (a_top a)) as [_|]; [|lia].
      rewrite (u_is_unused_ok _ _ _ _ R) by lia. cbn [obind top_of]. rewrite <- TE.
      destruct (a_map a (a_top a)) as [p|] eqn:EM; cbn [negb].
      + exists st. split; [reflexivity|]. split; [|auto].
        eapply urep_ext; [| | |exact R]; auto. cbn [a_free].
        assert (NI : ~ In (a_top a) (a_free a)) by (apply (ur_dom _ _ _ R); congruence).
        assert (AL : forall x, In x (a_free a) -> (x <? a_top a) = true).
        { intros x K. apply N.ltb_lt. pose proof (ur_free _ _ _ R _ K).
          assert (x <> a_top a) by congruence. lia. }
        clear -AL. induction (a_free a) as [|x l IH]; simpl; [reflexivity|].
        rewrite (AL x) by now left. rewrite IH; [reflexivity|]. intros; apply AL; now right.
      + assert (HI : In (a_top a) (a_free a)).
        { destruct (in_dec N.eq_dec (a_top a) (a_free a)); auto. exfalso.
          assert (K : a_map a (a_top a) <> None) by (apply (ur_dom _ _ _ R); split; [lia|auto]). congruence. }
        destruct (u_unused_detach_ok _ _ _ R HI) as (st1 & E1 & R1 & L1 & O1).
        rewrite E1. cbn [obind]. rewrite csub_ok by lia. cbn [obind].
        apply u_lower_ok in R1; cbn [a_top a_map] in *; [|lia|apply upd_same].
        specialize (IH fuel _ _ R1). cbn [a_top a_free a_map] in IH.
        destruct IH as (st2 & E2 & R2 & L2 & O2); [lia|lia|].
        exists st2. split; [exact E2|]. split; [|split; [rewrite L2; exact L1|rewrite O2; exact O1]].
        assert (ET : top_of (upd (upd (a_map a) (a_top a) (Some (0, 0))) (a_top a) None) n = top_of (a_map a) n).
        { apply top_of_ext. intros i Hi. rewrite !upd_other by lia. reflexivity. }
        rewrite ET in R2.
        pose proof (top_of_le (a_map a) n).
        eapply urep_ext; [| | |exact R2]; cbn [a_top a_free a_map]; auto.
        * symmetry. apply filter_lremove. apply N.ltb_ge. lia.
        * intros i. unfold upd. destruct (N.eqb_spec i (a_top a)) as [->|]; auto.
  Qed.

  (** ** The operations of the [Links] trait *)
  Theorem u_update_none st a q ch i s t : uinv cf st a ->
    qget q 0 = Val i -> qget ch 1 = Val s -> qget ch 2 = Val t -> a_map a i = None ->
    fails_with (fun H h x => u_update cf tops h q ch st x) st (NotExists i).
  Proof.
    intros [R W] Q1 Q2 Q3 EM H h x. unfold u_update. rewrite Q1, Q2, Q3. cbn [obind].
    rewrite (u_get_link_ok _ CF _ _ _ R). cbn [obind]. rewrite EM. reflexivity.
  Qed.

  Theorem u_update_ok st a q ch i s t : uinv cf st a ->
    qget q 0 = Val i -> qget ch 1 = Val s -> qget ch 2 = Val t ->
    a_map a i <> None -> detachable a i ->
    exists st', uinv cf st' (a_update a i s t) /\ u_len st' = u_len st /\ u_orc st' = u_orc st /\
      calls_once (fun H h x => u_update cf tops h q ch st x) st' (mkLink i s t) (mkLink i s t).
  Proof.
    intros [R W] Q1 Q2 Q3 EM DET. destruct (a_map a i) as [[os ot]|] eqn:E; [|congruence].
    destruct (u_relink_ok _ _ _ _ _ s t R E DET) as (st' & E' & R' & L & O).
    exists st'. split; [split; auto; apply awf_update; auto; congruence|]. split; auto. split; auto.
    intros H h x. unfold u_update. rewrite Q1, Q2, Q3. cbn [obind].
    rewrite (u_get_link_ok _ CF _ _ _ R). cbn [obind]. rewrite E. cbn [olink l_source l_target].
    rewrite E'. cbn [obind]. destruct (h x (mkLink i s t) (mkLink i s t)) as [x' f]. reflexivity.
  Qed.

  Theorem u_delete_none st a q i : uinv cf st a -> qget q 0 = Val i -> a_map a i = None ->
    fails_with (fun H h x => u_delete cf tops lops h q st x) st (NotExists i).
  Proof.
    intros [R W] Q1 EM H h x. unfold u_delete. rewrite Q1. cbn [obind].
    rewrite (u_get_link_ok _ CF _ _ _ R). cbn [obind]. rewrite EM. reflexivity.
  Qed.

  Theorem u_delete_ok st a q i os ot : uinv cf st a -> qget q 0 = Val i ->
    a_map a i = Some (os, ot) -> detachable a i ->
    exists st', uinv cf st' (a_delete a i) /\ u_len st' = u_len st /\ u_orc st' = u_orc st /\
      calls_once (fun H h x => u_delete cf tops lops h q st x) st' (mkLink i os ot) nothing.
  Proof.
    intros [R W] Q1 EM DET.
    destruct (u_update_ok st a [i] [i; 0; 0] i 0 0 (conj R W)) as (st1 & [R1 W1] & L1 & O1 & E1);
      auto; try reflexivity; [congruence|].
    specialize (E1 unit (fun u _ _ => (u, Continue)) tt). cbn beta iota in E1. cbn [fst snd] in E1.
    pose proof (awf_some _ _ _ W EM) as [IR NF].
    assert (FIN : forall st3, urep cf st3 (a_delete a i) -> uinv cf st3 (a_delete a i)).
    { intros st3 R3. split; auto. apply awf_delete; auto. congruence. }
    assert (MD : forall j, upd (upd (a_map a) i (Some (0, 0))) i None j = upd (a_map a) i None j).
    { intros j. unfold upd. destruct (j =? i); reflexivity. }
    assert (RED : forall st3,
      match i ?= a_top a with
      | Lt => u_unused_attach lops st1 i
      | Eq => let* a1 := csub (h_alloc st1) 1 in u_trim lops (u_fuel st1) (set_alloc st1 a1)
      | Gt => Panic
      end = Val st3 ->
      calls_once (fun H h x => u_delete cf tops lops h q st x) st3 (mkLink i os ot) nothing).
    { intros st3 E3 H h x. unfold u_delete. rewrite Q1. cbn [obind].
      rewrite (u_get_link_ok _ CF _ _ _ R). cbn [obind]. rewrite EM. cbn [olink]. rewrite E1.
      cbn [obind]. rewrite (u_header_ok _ _ _ R1). cbn [obind].
      rewrite (ur_alloc _ _ _ R1) in *. cbn [a_top a_update] in *. rewrite E3. cbn [obind].
      destruct (h x (mkLink i os ot) nothing); reflexivity. }
    rewrite (ur_alloc _ _ _ R1) in RED. cbn [a_top a_update] in RED.
    destruct (N.compare_spec i (a_top a)) as [Ei|Li|Gi]; [| |lia].
    - assert (EA : a_top (a_update a i 0 0) = i) by (simpl; auto).
      rewrite csub_ok in RED by lia. cbn [obind] in RED.
      assert (R2 : urep cf (set_alloc st1 (a_top a - 1))
                     (mkA (a_top a - 1) (a_free a) (upd (upd (a_map a) i (Some (0, 0))) i None))).
      { pose proof (u_lower_ok _ _ R1) as R2. rewrite EA in R2. rewrite <- Ei. apply R2; [lia|].
        cbn [a_map a_update]. apply upd_same. }
      destruct (u_trim_ok (N.to_nat (a_top a - 1)) (u_fuel st1) _ _ R2) as (st3 & E3 & R3 & L3 & O3).
      { reflexivity. }
      { unfold u_fuel. rewrite (ur_alloc _ _ _ R1). cbn [a_top a_update]. lia. }
      exists st3. split; [|split; [rewrite L3; exact L1|split; [rewrite O3; exact O1|now apply RED]]].
      apply FIN. unfold a_delete. destruct (N.ltb_spec i (a_top a)); [lia|].
      cbn [a_top a_free a_map] in R3.
      assert (ET : top_of (upd (a_map a) i None) (N.to_nat (a_top a)) =
                   top_of (upd (upd (a_map a) i (Some (0, 0))) i None) (N.to_nat (a_top a - 1))).
      { replace (N.to_nat (a_top a)) with (S (N.to_nat (a_top a - 1))) by lia. cbn [top_of].
        replace (N.of_nat (S (N.to_nat (a_top a - 1)))) with i by lia. rewrite upd_same.
        apply top_of_ext. intros j _. symmetry. apply MD. }
      cbv zeta. rewrite ET. eapply urep_ext; [| | |exact R3]; cbn [a_top a_free a_map]; auto.
    - destruct (u_unused_attach_ok _ _ i R1) as (st3 & E3 & R3 & L3 & O3).
      { cbn [a_map a_update]. apply upd_same. }
      exists st3. split; [|split; [congruence|split; [congruence|now apply RED]]].
      apply FIN. unfold a_delete. destruct (N.ltb_spec i (a_top a)); [|lia].
      eapply urep_ext; [| | |exact R3]; cbn [a_top a_free a_map a_update]; auto.
  Qed.

  (** Room in the address type for one growth step. *)
  Definition room (a : astate) : Prop := a_top a + 2 + c_step cf <= c_tmax cf.

  Lemma cfg_room_room a : cfg_room cf -> a_top a < c_iend cf -> room a.
  Proof. intros RM. pose proof (room_step _ RM). unfold room. lia. Qed.

  Theorem u_create_ok st a q :
    uinv cf st a ->
    (~ a_full cf a /\ a_free a = [] /\ ~ room a /\ u_orc st 0%nat (u_len st + c_step cf) = true /\
       c_tmax cf < u_len st + c_step cf /\ u_len st <= a_top a + 2 /\
       forall H (h : whandler H) x, u_create cf lops h q st x = Panic) \/
    (a_full cf a /\ fails_with (fun H h x => u_create cf lops h q st x) st (LimitReached (c_iend cf))) \/
    (~ a_full cf a /\ a_free a = [] /\ u_orc st 0%nat (u_len st + c_step cf) = false /\
       uinv cf (u_alloc_failed st) a /\
       fails_with (fun H h x => u_create cf lops h q st x) (u_alloc_failed st) AllocFailed) \/
    (~ a_full cf a /\ exists st', uinv cf st' (a_create a) /\
       calls_once (fun H h x => u_create cf lops h q st x) st' nothing (mkLink (a_next a) 0 0)).
  Proof.
    intros [R W]. unfold fails_with, calls_once, u_create. rewrite (u_header_ok _ _ _ R). cbn [obind].
    rewrite (ur_first _ _ _ R), (ok_null _ CF).
    destruct (a_free a) as [|y fl] eqn:EF; cbn [hd].
    - rewrite N.eqb_refl. rewrite (ur_alloc _ _ _ R).
      destruct (N.leb_spec (c_iend cf) (a_top a)) as [G|G]; [right; left; split; auto; split; auto|].
      assert (NF : ~ a_full cf a) by (intros [_ K]; lia).
      pose proof (ok_iend _ CF) as IE. pose proof (ok_any _ CF) as AN.
      assert (CREATE : forall st1, urep cf st1 a -> a_top a + 1 < u_len st1 ->
         exists st', uinv cf st' (a_create a) /\ forall H (h : whandler H) x,
         (let* a0 := cadd (c_tmax cf) (h_alloc st1) 1 in
          let st2 := set_alloc st1 a0 in
          let (s', f) := h x nothing (mkLink a0 0 0) in Val (st2, s', Ok f)) =
           Val (st', fst (h x nothing (mkLink (a_next a) 0 0)), Ok (snd (h x nothing (mkLink (a_next a) 0 0))))).
      { intros st1 R1 L1. exists (set_alloc st1 (a_top a + 1)). split.
        2:{ intros H h x. rewrite (ur_alloc _ _ _ R1). rewrite cadd_ok by lia. cbn [obind].
            unfold a_next. rewrite EF. destruct (h x nothing (mkLink (a_top a + 1) 0 0)). reflexivity. }
        split; [|now apply awf_create].
        assert (NM : a_map a (a_top a + 1) = None) by (apply awf_none; auto; left; lia).
        assert (DU : forall j, j <> 0 -> u_data (set_alloc st1 (a_top a + 1)) j = u_data st1 j).
        { intros. apply upd_other; auto. }
        assert (MM : forall j p, a_map (a_create a) j = Some p -> (j = a_top a + 1 /\ p = (0,0)) \/ a_map a j = Some p).
        { intros j p. unfold a_create. rewrite EF. cbn [a_map]. unfold upd.
          destruct (N.eqb_spec j (a_top a + 1)); auto. intros K. left. split; congruence. }
        assert (XS : forall j, psrc a j <-> psrc (a_create a) j).
        { intros j. unfold psrc, a_create. rewrite EF. cbn [a_map]. unfold upd.
          destruct (N.eqb_spec j (a_top a + 1)) as [->|]; [|tauto].
          rewrite NM. split; intros (u & v & K1 & K2); congruence. }
        assert (XT : forall j, ptgt a j <-> ptgt (a_create a) j).
        { intros j. unfold ptgt, a_create. rewrite EF. cbn [a_map]. unfold upd.
          destruct (N.eqb_spec j (a_top a + 1)) as [->|]; [|tauto].
          rewrite NM. split; intros (u & v & K1 & K2); congruence. }
        assert (TA : a_top (a_create a) = a_top a + 1) by (unfold a_create; now rewrite EF).
        assert (FA : a_free (a_create a) = []) by (unfold a_create; now rewrite EF).
        constructor.
        - unfold h_alloc, set_alloc. cbn [u_data set_data]. rewrite upd_same. symmetry; exact TA.
        - lia.
        - rewrite TA. exact L1.
        - unfold h_reserved, set_alloc. cbn [u_data set_data]. rewrite upd_same. apply R1.
        - unfold h_reserved, set_alloc. cbn [u_data set_data u_len]. rewrite upd_same. apply R1.
        - rewrite FA. pose proof (ur_list _ _ _ R1) as LR. rewrite EF in LR.
          eapply lrep_ext; [|exact LR]. intros j [].
        - intros j. rewrite (wf_dom _ (awf_create _ W)). reflexivity.
        - apply (wf_free _ (awf_create _ W)).
        - intros j p K. destruct (MM _ _ K) as [[-> ->]|K'].
          + rewrite DU by lia. apply (ur_beyond _ _ _ R1). lia.
          + assert (K2 : a_map a j <> None) by congruence. apply (ur_dom _ _ _ R1) in K2.
            rewrite DU by lia. now apply (ur_data _ _ _ R1).
        - eapply tree_inv_ext; [exact XS| | |apply (ur_src _ _ _ R1)]; auto.
          intros j K. unfold key_src. rewrite DU; auto. apply (ur_psrc_range _ _ _ _ R1) in K. lia.
        - intros j J0 K. apply (ur_src0 _ _ _ R1); auto. now rewrite XS.
        - eapply tree_inv_ext; [exact XT| | |apply (ur_tgt _ _ _ R1)]; auto.
          intros j K. unfold key_tgt. rewrite DU; auto. apply (ur_ptgt_range _ _ _ _ R1) in K. lia.
        - intros j J0 K. apply (ur_tgt0 _ _ _ R1); auto. now rewrite XT.
        - intros j Hj. rewrite DU by lia. apply (ur_beyond _ _ _ R1). lia.
        - apply R1. }
      unfold u_grow. pose proof (ur_res1 _ _ _ R). pose proof (ur_res2 _ _ _ R).
      rewrite csub_ok by lia. cbn [obind]. rewrite (ur_alloc _ _ _ R).
      destruct (N.leb_spec (h_reserved st - 1) (a_top a)) as [GR|GR].
      + unfold u_alloc_mem. destruct (u_orc st 0%nat (u_len st + c_step cf)) eqn:EO.
        * unfold u_header. cbn [u_len]. pose proof (ok_step _ CF).
          destruct (N.ltb_spec 0 (u_len st + c_step cf)); [|lia]. cbn [obind].
          unfold ctry. destruct (N.leb_spec (u_len st + c_step cf) (c_tmax cf)) as [LT|LT].
          2:{ left. split; auto. split; auto. unfold room. repeat split; auto; lia. }
          cbn [obind]. right; right; right. split; [exact NF|].
          apply CREATE.
          -- set (st1 := mkU (u_len st + c_step cf) (fun k => u_orc st (S k)) (u_data st) (u_src st) (u_tgt st)).
             assert (DU : forall j, j <> 0 -> u_data (set_reserved st1 (u_len st + c_step cf)) j = u_data st j).
             { intros. apply upd_other; auto. }
             pose proof (ur_len _ _ _ R).
             constructor.
             ++ unfold h_alloc, set_reserved. cbn [u_data set_data]. rewrite upd_same. apply R.
             ++ apply R.
             ++ cbn [u_len set_reserved set_data st1]. lia.
             ++ unfold h_reserved, set_reserved. cbn [u_data set_data]. rewrite upd_same. cbn [snd]. lia.
             ++ unfold h_reserved, set_reserved. cbn [u_data set_data u_len st1]. rewrite upd_same. cbn [snd]. lia.
             ++ eapply lrep_ext; [|apply (ur_list _ _ _ R)]. intros y Hy. apply DU.
                apply (ur_free _ _ _ R) in Hy. lia.
             ++ apply R.
             ++ apply R.
             ++ intros j p K. assert (K2 : a_map a j <> None) by congruence. apply (ur_dom _ _ _ R) in K2.
                rewrite DU by lia. now apply (ur_data _ _ _ R).
             ++ eapply tree_inv_ext; [| | |apply (ur_src _ _ _ R)]; [tauto| |auto].
                intros j K. unfold key_src. rewrite DU; auto. apply (ur_psrc_range _ _ _ _ R) in K. lia.
             ++ apply R.
             ++ eapply tree_inv_ext; [| | |apply (ur_tgt _ _ _ R)]; [tauto| |auto].
                intros j K. unfold key_tgt. rewrite DU; auto. apply (ur_ptgt_range _ _ _ _ R) in K. lia.
             ++ apply R.
             ++ intros j Hj. rewrite DU by lia. now apply (ur_beyond _ _ _ R).
             ++ apply R.
          -- cbn [u_len set_reserved set_data]. pose proof (ur_len _ _ _ R). lia.
        * right; right; left. split; auto. split; auto. split; auto. split; [|reflexivity].
          split; auto. apply urep_orc; auto.
      + right; right; right. split; [exact NF|]. cbn [obind]. apply CREATE; auto. lia.
    - destruct (N.eqb_spec y 0) as [->|Y0].
      { exfalso. assert (K : In 0 (a_free a)) by (rewrite EF; now left). apply (ur_free _ _ _ R) in K. lia. }
      right; right; right. split; [intros [K _]; congruence|].
      destruct (u_unused_detach_ok _ _ y R) as (st1 & E1 & R1 & L1 & O1); [rewrite EF; now left|].
      rewrite E1. cbn [obind]. unfold a_next. rewrite EF.
      exists st1. split; [|intros H h x; destruct (h x nothing (mkLink y 0 0)); reflexivity].
      split; [|now apply awf_create].
      pose proof (wf_nodup _ W) as ND. rewrite EF in ND. inversion ND; subst.
      eapply urep_ext; [| | |exact R1]; unfold a_create; rewrite EF; cbn [a_top a_free a_map]; auto.
      symmetry. now apply lremove_head.
  Qed.

  (** ** Opening *)
  Definition same_cells (m st : ust) : Prop :=
    (forall j, j <> 0 -> u_data m j = u_data st j) /\ h_alloc m = h_alloc st /\
    u_src m = u_src st /\ u_tgt m = u_tgt st.

  Lemma u_open_urep m st a :
    same_cells m st -> urep cf st a -> a_top a < c_step cf -> c_step cf - 1 <= c_tmax cf ->
    u_orc m 0%nat (c_page cf) = true -> u_orc m 1%nat (c_step cf) = true ->
    exists st', u_open cf m = Val (Ok st') /\ urep cf st' a /\ u_len st' = c_step cf.
  Proof.
    intros (S1 & S0 & S2 & S3) R TS TM O1 O2. unfold u_open, u_alloc_mem. rewrite O1.
    pose proof (ok_page _ CF). pose proof (ok_step _ CF).
    unfold u_header at 1. cbn [u_len]. destruct (N.ltb_spec 0 (c_page cf)); [|lia]. cbn [obind u_orc].
    change (h_alloc (mkU (c_page cf) (fun k => u_orc m (S k)) (u_data m) (u_src m) (u_tgt m))) with (h_alloc m).
    rewrite S0, (ur_alloc _ _ _ R). rewrite N.max_l by lia. rewrite O2.
    unfold u_header. cbn [u_len]. destruct (N.ltb_spec 0 (c_step cf)); [|lia]. cbn [obind].
    rewrite csub_ok by lia. cbn [obind]. rewrite ctry_ok by lia. cbn [obind].
    eexists. split; [reflexivity|]. split; [|reflexivity].
    set (st1 := mkU (c_step cf) _ _ _ _).
    assert (DU : forall j, j <> 0 -> u_data (set_reserved st1 (c_step cf - 1)) j = u_data st j).
    { intros. unfold set_reserved. cbn [u_data set_data st1]. rewrite upd_other by auto. now apply S1. }
    assert (SU : u_src (set_reserved st1 (c_step cf - 1)) = u_src st) by exact S2.
    assert (TU : u_tgt (set_reserved st1 (c_step cf - 1)) = u_tgt st) by exact S3.
    constructor.
    - unfold h_alloc, set_reserved. cbn [u_data set_data]. rewrite upd_same. cbn [fst].
      change (h_alloc m = a_top a). rewrite S0. apply R.
    - apply R.
    - cbn [u_len set_reserved set_data st1]. exact TS.
    - unfold h_reserved, set_reserved. cbn [u_data set_data]. rewrite upd_same. cbn [snd]. lia.
    - unfold h_reserved, set_reserved. cbn [u_data set_data u_len st1]. rewrite upd_same. cbn [snd]. lia.
    - unfold u_lhdr, h_first, h_last, h_free. rewrite SU, TU.
      eapply lrep_ext; [|apply (ur_list _ _ _ R)]. intros y Hy. apply DU.
      apply (ur_free _ _ _ R) in Hy. lia.
    - apply R.
    - apply R.
    - intros j p K. assert (K2 : a_map a j <> None) by congruence. apply (ur_dom _ _ _ R) in K2.
      rewrite DU by lia. now apply (ur_data _ _ _ R).
    - unfold h_sroot. rewrite SU. eapply tree_inv_ext; [| | |apply (ur_src _ _ _ R)]; [tauto| |auto].
      intros j K. unfold key_src. rewrite DU; auto. apply (ur_psrc_range _ _ _ _ R) in K. lia.
    - rewrite SU. apply R.
    - unfold h_troot. rewrite TU. eapply tree_inv_ext; [| | |apply (ur_tgt _ _ _ R)]; [tauto| |auto].
      intros j K. unfold key_tgt. rewrite DU; auto. apply (ur_ptgt_range _ _ _ _ R) in K. lia.
    - rewrite TU. apply R.
    - intros j Hj. rewrite DU by lia. now apply (ur_beyond _ _ _ R).
    - rewrite TU. apply R.
  Qed.

  Theorem u_open_ok m st a :
    same_cells m st -> uinv cf st a -> a_top a < c_step cf -> c_step cf - 1 <= c_tmax cf ->
    u_orc m 0%nat (c_page cf) = true -> u_orc m 1%nat (c_step cf) = true ->
    exists st', u_open cf m = Val (Ok st') /\ uinv cf st' a /\ u_len st' = c_step cf.
  Proof.
    intros S [R W] TS TM O1 O2. destruct (u_open_urep m st a S R TS TM O1 O2) as (st' & E & R' & L).
    exists st'. split; [exact E|]. split; [|exact L]. split; [exact R'|exact W].
  Qed.

  Theorem u_open_fail m :
    u_orc m 0%nat (c_page cf) = false -> u_open cf m = Val (Err AllocFailed).
  Proof. intros O. unfold u_open, u_alloc_mem. now rewrite O. Qed.

  Theorem u_open_blank orc :
    c_step cf - 1 <= c_tmax cf ->
    orc 0%nat (c_page cf) = true -> orc 1%nat (c_step cf) = true ->
    exists st, u_open cf (u_blank orc) = Val (Ok st) /\ uinv cf st a_empty /\ u_len st = c_step cf.
  Proof.
    intros TM O1 O2. pose proof (ok_step _ CF).
    apply u_open_ok with (st := mkU 2 orc (upd (fun _ => (0,0)) 0 (0, 1)) (fun _ => nd0) (fun _ => nd0)); auto.
    - repeat split; auto. intros j J. cbn [u_data u_blank]. now rewrite upd_other.
    - split; [|apply awf_empty]. constructor; cbn; try lia; auto; try tauto; try discriminate.
      + split; [constructor|]. repeat split; auto.
      + intros i. split; [congruence|]. intros [K _]. lia.
      + apply (tree_inv_ext (fun _ => (0, 0)) _ (fun _ => nd0) _ 0 (fun _ => False)); [| | |apply tree_inv_empty]; [|intros ? []|intros ? []].
        intros i. split; [tauto|]. intros (x & y & K & _). discriminate.
      + apply (tree_inv_ext (fun _ => (0, 0)) _ (fun _ => nd0) _ 0 (fun _ => False)); [| | |apply tree_inv_empty]; [|intros ? []|intros ? []].
        intros i. split; [tauto|]. intros (x & y & K & _). discriminate.
      + intros i K. rewrite upd_other by lia. reflexivity.
    - cbn. lia.
  Qed.
End Ops.
