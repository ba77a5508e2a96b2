(** Refinement of the modifying operations of the two-memory store. *)
From Coq Require Import NArith List Bool Lia Permutation.
From Verif Require Import Base Trees Lists TreeInv Spec Iface UnitModel UnitInv UnitOps LinkModel SplitModel Forest
  SplitInv SplitReads.
Import ListNotations.
Open Scope N_scope.

(** Same memory blocks and same future allocations. *)
Definition same_mem (st st' : sst) : Prop :=
  s_dlen st' = s_dlen st /\ s_ilen st' = s_ilen st /\ s_orc st' = s_orc st.

Lemma same_mem_refl st : same_mem st st.
Proof. repeat split. Qed.
Lemma same_mem_trans a b c : same_mem a b -> same_mem b c -> same_mem a c.
Proof. unfold same_mem. intuition congruence. Qed.

Lemma smem_trees cf st st' a sP tP sP' tP' :
  smem cf st a sP tP ->
  s_dcap st' = s_dcap st -> s_dlen st' = s_dlen st -> s_ilen st' = s_ilen st -> s_data st' = s_data st ->
  s_is st' 0 = s_is st 0 -> s_rs st' 0 = s_rs st 0 ->
  nr (s_it st' 0) = nr (s_it st 0) -> nz (s_it st' 0) = nz (s_it st 0) ->
  forest (key_src (s_data st)) (key_is (s_data st)) (s_is st') (s_rs st') (sh_sroot st') sP' ->
  forest (key_tgt (s_data st)) (key_it (s_data st)) (s_it st') (s_rt st') (sh_troot st') tP' ->
  sp_ok a sP' -> tp_ok a tP' -> smem cf st' a sP' tP'.
Proof.
  intros R E1 E2 E3 E4 E5 E6 E7 E8 F1 F2 O1 O2. destruct R.
  constructor; unfold sh_alloc, sh_reserved in *; rewrite ?E1, ?E2, ?E3, ?E4, ?E5, ?E6, ?E8; auto.
  unfold s_lhdr, sh_first, sh_last, sh_free in *. rewrite E5, E7. auto.
Qed.

Lemma smem_pl cf st a sP tP sP' tP' :
  (forall x, sP' x = sP x) -> (forall x, tP' x = tP x) -> smem cf st a sP tP -> smem cf st a sP' tP'.
Proof.
  intros E1 E2 R. eapply smem_trees; try exact R; auto.
  - eapply forest_ext; [| | | |apply (sm_src _ _ _ _ _ R)]; auto.
  - eapply forest_ext; [| | | |apply (sm_tgt _ _ _ _ _ R)]; auto.
  - intros x. rewrite E1. apply R.
  - intros x. rewrite E2. apply R.
Qed.

Lemma smem_ext cf st a a' sP tP :
  a_top a' = a_top a -> a_free a' = a_free a -> (forall i, a_map a' i = a_map a i) ->
  smem cf st a sP tP -> smem cf st a' sP tP.
Proof.
  intros E1 E2 E3 R. destruct R. constructor; rewrite ?E1, ?E2; auto.
  - intros i. rewrite E3. auto.
  - intros i p. rewrite E3. auto.
  - intros x. specialize (sm_sp x). destruct (sP x); auto; rewrite ?E3; auto.
    unfold psrc in *. rewrite E3. auto.
  - intros x. specialize (sm_tp x). destruct (tP x); auto; rewrite ?E3; auto.
    unfold ptgt in *. rewrite E3. auto.
Qed.

Section Ops.
  Variable cf : cfg.
  Hypothesis CF : cfg_ok cf.
  Variable tops : tree_ops.
  Hypothesis TOK : tree_ops_ok tops.
  Variable lops : list_ops.
  Hypothesis LOK : list_ops_ok lops.

  (** ** No other node of the tree has the key *)
  Lemma is_distinct st a sP tP v i : smem cf st a sP tP -> detachable a i -> sP i = Int v ->
    forall j, sP j = Int v -> key_is (s_data st) j = key_is (s_data st) i -> j = i.
  Proof.
    intros R D Hi j Hj K. pose proof (sm_sp _ _ _ _ _ R i) as Oi. pose proof (sm_sp _ _ _ _ _ R j) as Oj.
    rewrite Hi in Oi. rewrite Hj in Oj. destruct Oj as ((tj & Ej) & _ & _). destruct Oi as ((ti & Ei) & V0 & _).
    rewrite (sm_key_is _ _ _ _ _ _ _ _ R Ei), (sm_key_is _ _ _ _ _ _ _ _ R Ej) in K. inversion K; subst.
    destruct D as [D|D]; [congruence|]. eapply D; eauto.
  Qed.
  Lemma it_distinct st a sP tP v i : smem cf st a sP tP -> detachable a i -> tP i = Int v ->
    forall j, tP j = Int v -> key_it (s_data st) j = key_it (s_data st) i -> j = i.
  Proof.
    intros R D Hi j Hj K. pose proof (sm_tp _ _ _ _ _ R i) as Oi. pose proof (sm_tp _ _ _ _ _ R j) as Oj.
    rewrite Hi in Oi. rewrite Hj in Oj. destruct Oj as ((tj & Ej) & _ & _). destruct Oi as ((ti & Ei) & V0 & _).
    rewrite (sm_key_it _ _ _ _ _ _ _ _ R Ei), (sm_key_it _ _ _ _ _ _ _ _ R Ej) in K. inversion K; subst.
    destruct D as [D|D]; [congruence|]. eapply D; eauto.
  Qed.
  Lemma es_distinct st a sP tP i : smem cf st a sP tP -> detachable a i -> sP i = Ext ->
    forall j, sP j = Ext -> key_src (s_data st) j = key_src (s_data st) i -> j = i.
  Proof.
    intros R D Hi j Hj K. pose proof (sm_sp _ _ _ _ _ R i) as Oi. pose proof (sm_sp _ _ _ _ _ R j) as Oj.
    rewrite Hi in Oi. rewrite Hj in Oj. destruct Oj as (sj & tj & Ej & N2). destruct Oi as (si & ti & Ei & N1).
    rewrite (sm_key_src _ _ _ _ _ _ _ _ R Ei), (sm_key_src _ _ _ _ _ _ _ _ R Ej) in K. inversion K; subst.
    destruct D as [D|D]; [congruence|]. eapply D; eauto.
  Qed.
  Lemma et_distinct st a sP tP i : smem cf st a sP tP -> detachable a i -> tP i = Ext ->
    forall j, tP j = Ext -> key_tgt (s_data st) j = key_tgt (s_data st) i -> j = i.
  Proof.
    intros R D Hi j Hj K. pose proof (sm_tp _ _ _ _ _ R i) as Oi. pose proof (sm_tp _ _ _ _ _ R j) as Oj.
    rewrite Hi in Oi. rewrite Hj in Oj. destruct Oj as (sj & tj & Ej & N2). destruct Oi as (si & ti & Ei & N1).
    rewrite (sm_key_tgt _ _ _ _ _ _ _ _ R Ei), (sm_key_tgt _ _ _ _ _ _ _ _ R Ej) in K. inversion K; subst.
    destruct D as [D|D]; [congruence|]. eapply D; eauto.
  Qed.

  Lemma sm_tgt_root st a sP tP r : smem cf st a sP tP ->
    forest (key_tgt (s_data st)) (key_it (s_data st)) (s_it st) (upd (s_rt st) 0 r) (sh_troot st) tP.
  Proof.
    intros R. eapply forest_ext; [| | | |apply (sm_tgt _ _ _ _ _ R)]; auto.
    intros v V. now apply upd_other.
  Qed.

  (** ** The eight tree operations *)
  Lemma s_detach_is_ok st a sP tP v x : smem cf st a sP tP -> detachable a x -> sP x = Int v ->
    exists st', s_detach_is tops st v x = Val st' /\ smem cf st' a (upd sP x Out) tP /\ same_mem st st'.
  Proof.
    intros R D X. pose proof (sm_sp _ _ _ _ _ R x) as O. rewrite X in O. destruct O as (_ & V0 & VM).
    apply (sm_dom _ _ _ _ _ R) in VM as [VR _]. pose proof (sm_len _ _ _ _ _ R).
    destruct (forest_detach_int tops TOK _ _ _ _ _ _ x v (sm_src _ _ _ _ _ R) X (is_distinct _ _ _ _ v x R D X))
      as (c & r & E & F & C0).
    unfold s_detach_is. rewrite rd_ok by lia. cbn [obind]. rewrite (s_view_ok _ _ _ _ _ R). cbn [obind].
    rewrite E. cbn [obind]. eexists. split; [reflexivity|]. split; [|repeat split].
    eapply smem_trees; try exact R; try reflexivity; cbn [s_set_src s_rs s_is]; auto.
    - apply upd_other. auto.
    - apply R.
    - apply sp_ok_upd; [apply R|exact I].
    - apply R.
  Qed.

  Lemma s_attach_is_ok st a sP tP v t x : smem cf st a sP tP -> a_map a x = Some (v, t) -> v <> 0 ->
    a_map a v <> None -> sP x = Out ->
    exists st', s_attach_is tops st v x = Val st' /\ smem cf st' a (upd sP x (Int v)) tP /\ same_mem st st'.
  Proof.
    intros R EX V0 VM X. assert (VM' := VM).
    apply (sm_dom _ _ _ _ _ R) in VM as [VR _]. pose proof (sm_len _ _ _ _ _ R).
    destruct (sm_range _ _ _ _ _ _ _ R EX) as [XR _].
    destruct (forest_attach_int tops TOK _ _ _ _ _ _ x v (sm_src _ _ _ _ _ R)) as (c & r & E & F & C0); auto; [lia|].
    unfold s_attach_is. rewrite rd_ok by lia. cbn [obind]. rewrite (s_view_ok _ _ _ _ _ R). cbn [obind].
    rewrite E. cbn [obind]. eexists. split; [reflexivity|]. split; [|repeat split].
    eapply smem_trees; try exact R; try reflexivity; cbn [s_set_src s_rs s_is]; auto.
    - apply upd_other. auto.
    - apply R.
    - apply sp_ok_upd; [apply R|]. eauto.
    - apply R.
  Qed.

  Lemma s_detach_it_ok st a sP tP v x : smem cf st a sP tP -> detachable a x -> tP x = Int v ->
    exists st', s_detach_it tops st v x = Val st' /\ smem cf st' a sP (upd tP x Out) /\ same_mem st st'.
  Proof.
    intros R D X. pose proof (sm_tp _ _ _ _ _ R x) as O. rewrite X in O. destruct O as (_ & V0 & VM).
    apply (sm_dom _ _ _ _ _ R) in VM as [VR _]. pose proof (sm_len _ _ _ _ _ R).
    destruct (forest_detach_int tops TOK _ _ _ _ _ _ x v (sm_tgt _ _ _ _ _ R) X (it_distinct _ _ _ _ v x R D X))
      as (c & r & E & F & C0).
    unfold s_detach_it. rewrite rd_ok by lia. cbn [obind]. rewrite (s_view_ok _ _ _ _ _ R). cbn [obind].
    rewrite E. cbn [obind]. eexists. split; [reflexivity|]. split; [|repeat split].
    eapply smem_trees; try exact R; try reflexivity; cbn [s_set_tgt s_rt s_it]; auto; try congruence.
    - unfold sh_sroot. cbn [s_rt s_set_tgt]. rewrite upd_other by auto. apply R.
    - unfold sh_troot. cbn [s_it s_set_tgt]. rewrite C0. exact F.
    - apply R.
    - apply tp_ok_upd; [apply R|exact I].
  Qed.

  Lemma s_attach_it_ok st a sP tP v s x : smem cf st a sP tP -> a_map a x = Some (s, v) -> v <> 0 ->
    a_map a v <> None -> tP x = Out ->
    exists st', s_attach_it tops st v x = Val st' /\ smem cf st' a sP (upd tP x (Int v)) /\ same_mem st st'.
  Proof.
    intros R EX V0 VM X. assert (VM' := VM).
    apply (sm_dom _ _ _ _ _ R) in VM as [VR _]. pose proof (sm_len _ _ _ _ _ R).
    destruct (sm_range _ _ _ _ _ _ _ R EX) as [XR _].
    destruct (forest_attach_int tops TOK _ _ _ _ _ _ x v (sm_tgt _ _ _ _ _ R)) as (c & r & E & F & C0); auto; [lia|].
    unfold s_attach_it. rewrite rd_ok by lia. cbn [obind]. rewrite (s_view_ok _ _ _ _ _ R). cbn [obind].
    rewrite E. cbn [obind]. eexists. split; [reflexivity|]. split; [|repeat split].
    eapply smem_trees; try exact R; try reflexivity; cbn [s_set_tgt s_rt s_it]; auto; try congruence.
    - unfold sh_sroot. cbn [s_rt s_set_tgt]. rewrite upd_other by auto. apply R.
    - unfold sh_troot. cbn [s_it s_set_tgt]. rewrite C0. exact F.
    - apply R.
    - apply tp_ok_upd; [apply R|]. eauto.
  Qed.

  Lemma s_detach_es_ok st a sP tP x : smem cf st a sP tP -> detachable a x -> sP x = Ext ->
    exists st', s_detach_es tops st x = Val st' /\ smem cf st' a (upd sP x Out) tP /\ same_mem st st'.
  Proof.
    intros R D X.
    destruct (forest_detach_ext tops TOK _ _ _ _ _ _ x (sm_src _ _ _ _ _ R) X (es_distinct _ _ _ _ x R D X))
      as (c & r & E & F & C0).
    unfold s_detach_es. rewrite (s_header_ok _ _ _ _ _ R), (s_view_ok _ _ _ _ _ R). cbn [obind].
    rewrite E. cbn [obind]. eexists. split; [reflexivity|]. split; [|repeat split].
    eapply smem_trees; try exact R; try reflexivity; cbn [s_set_src s_set_tgt s_rs s_is s_rt s_it]; auto.
    - apply (sm_tgt_root _ _ _ _ r R).
    - apply sp_ok_upd; [apply R|exact I].
    - apply R.
  Qed.

  Lemma s_attach_es_ok st a sP tP x : smem cf st a sP tP -> psrc a x -> sP x = Out ->
    exists st', s_attach_es tops st x = Val st' /\ smem cf st' a (upd sP x Ext) tP /\ same_mem st st'.
  Proof.
    intros R PX X. assert (XN : x <> 0).
    { destruct PX as (s & t & E & _). destruct (sm_range _ _ _ _ _ _ _ R E). lia. }
    destruct (forest_attach_ext tops TOK _ _ _ _ _ _ x (sm_src _ _ _ _ _ R)) as (c & r & E & F & C0); auto.
    unfold s_attach_es. rewrite (s_header_ok _ _ _ _ _ R), (s_view_ok _ _ _ _ _ R). cbn [obind].
    rewrite E. cbn [obind]. eexists. split; [reflexivity|]. split; [|repeat split].
    eapply smem_trees; try exact R; try reflexivity; cbn [s_set_src s_set_tgt s_rs s_is s_rt s_it]; auto.
    - apply (sm_tgt_root _ _ _ _ r R).
    - apply sp_ok_upd; [apply R|exact PX].
    - apply R.
  Qed.

  Lemma set_troot_0 c r : nl (set_troot c r 0) = r /\ nr (set_troot c r 0) = nr (c 0) /\ nz (set_troot c r 0) = nz (c 0).
  Proof. unfold set_troot. rewrite upd_same. repeat split. Qed.

  Lemma s_detach_et_ok st a sP tP x : smem cf st a sP tP -> detachable a x -> tP x = Ext ->
    exists st', s_detach_et tops st x = Val st' /\ smem cf st' a sP (upd tP x Out) /\ same_mem st st'.
  Proof.
    intros R D X.
    destruct (forest_detach_ext tops TOK _ _ _ _ _ _ x (sm_tgt _ _ _ _ _ R) X (et_distinct _ _ _ _ x R D X))
      as (c & r & E & F & C0).
    unfold s_detach_et. rewrite (s_header_ok _ _ _ _ _ R), (s_view_ok _ _ _ _ _ R). cbn [obind].
    rewrite E. cbn [obind]. eexists. split; [reflexivity|]. split; [|repeat split].
    destruct (set_troot_0 c r) as (T1 & T2 & T3).
    eapply smem_trees; try exact R; try reflexivity; cbn [s_set_src s_set_tgt s_rs s_is s_rt s_it]; auto; try congruence.
    - apply R.
    - unfold sh_troot. cbn [s_set_tgt s_it]. rewrite T1. eapply forest_ext; [| | | |exact F]; auto.
      intros y Y. unfold set_troot. now apply upd_other.
    - apply R.
    - apply tp_ok_upd; [apply R|exact I].
  Qed.

  Lemma s_attach_et_ok st a sP tP x : smem cf st a sP tP -> ptgt a x -> tP x = Out ->
    exists st', s_attach_et tops st x = Val st' /\ smem cf st' a sP (upd tP x Ext) /\ same_mem st st'.
  Proof.
    intros R PX X. assert (XN : x <> 0).
    { destruct PX as (s & t & E & _). destruct (sm_range _ _ _ _ _ _ _ R E). lia. }
    destruct (forest_attach_ext tops TOK _ _ _ _ _ _ x (sm_tgt _ _ _ _ _ R)) as (c & r & E & F & C0); auto.
    unfold s_attach_et. rewrite (s_header_ok _ _ _ _ _ R), (s_view_ok _ _ _ _ _ R). cbn [obind].
    rewrite E. cbn [obind]. eexists. split; [reflexivity|]. split; [|repeat split].
    destruct (set_troot_0 c r) as (T1 & T2 & T3).
    eapply smem_trees; try exact R; try reflexivity; cbn [s_set_src s_set_tgt s_rs s_is s_rt s_it]; auto; try congruence.
    - apply R.
    - unfold sh_troot. cbn [s_set_tgt s_it]. rewrite T1. eapply forest_ext; [| | | |exact F]; auto.
      intros y Y. unfold set_troot. now apply upd_other.
    - apply R.
    - apply tp_ok_upd; [apply R|exact PX].
  Qed.

  (** ** update *)
  Lemma smem_write st a sP tP i p s t : smem cf st a sP tP -> a_map a i = Some p -> sP i = Out -> tP i = Out ->
    smem cf (s_set_data st (upd (s_data st) i (s, t))) (a_update a i s t) sP tP.
  Proof.
    intros R EM SO TO. destruct (sm_range _ _ _ _ _ _ _ R EM) as [IR IF].
    assert (DM : forall v, a_map (a_update a i s t) v <> None <-> a_map a v <> None).
    { intros v. cbn [a_map a_update]. rewrite upd_none_iff by discriminate. split; [intros [->|]; congruence|auto]. }
    constructor; cbn [a_top a_free a_update]; try apply R.
    - eapply lrep_ext; [|apply (sm_list _ _ _ _ _ R)]. intros y Y. apply upd_other. congruence.
    - intros j. rewrite DM. apply R.
    - intros j q. cbn [a_map a_update s_data s_set_data]. unfold upd. destruct (N.eqb_spec j i); [congruence|]. apply R.
    - eapply forest_ext; [| | | |apply (sm_src _ _ _ _ _ R)]; auto.
      intros x X. unfold key_src, key_is. cbn [s_data s_set_data]. rewrite upd_other by congruence. auto.
    - eapply forest_ext; [| | | |apply (sm_tgt _ _ _ _ _ R)]; auto.
      intros x X. unfold key_tgt, key_it. cbn [s_data s_set_data]. rewrite upd_other by congruence. auto.
    - intros x. pose proof (sm_sp _ _ _ _ _ R x) as O. destruct (sP x) as [| |v] eqn:E; auto.
      + unfold psrc in *. cbn [a_map a_update]. rewrite upd_other by congruence. exact O.
      + destruct O as (O1 & O2 & O3). rewrite DM. cbn [a_map a_update]. rewrite upd_other by congruence. auto.
    - intros x. pose proof (sm_tp _ _ _ _ _ R x) as O. destruct (tP x) as [| |v] eqn:E; auto.
      + unfold ptgt in *. cbn [a_map a_update]. rewrite upd_other by congruence. exact O.
      + destruct O as (O1 & O2 & O3). rewrite DM. cbn [a_map a_update]. rewrite upd_other by congruence. auto.
    - intros j J. cbn [s_data s_set_data]. rewrite upd_other by lia. now apply (sm_beyond _ _ _ _ _ R).
    - cbn [s_data s_set_data]. rewrite upd_other by lia. exact (sm_data0 _ _ _ _ _ R).
  Qed.

  Lemma place_of_upd a i s t v : a_map a i <> None -> place_of (a_update a i s t) v = place_of a v.
  Proof.
    intros E. unfold place_of. destruct (v =? 0); auto. cbn [a_map a_update]. unfold upd.
    destruct (N.eqb_spec v i) as [->|]; auto. destruct (a_map a i); congruence.
  Qed.

  (** Where update_links puts link [i] for a reference to [v]: while the link had a source, a
      reference to the link itself goes to the external tree, because the link, taken out of its
      target's tree, looks unused. *)
  Definition put_in (a : astate) (i os v : N) : place :=
    if (v =? i) && negb (os =? 0) then Ext else place_of a v.

  Lemma s_relink_gen st a sP tP i os ot s t :
    smem cf st a sP tP -> all_placed a tP -> a_map a i = Some (os, ot) -> detachable a i ->
    sP i = place_of a os -> tP i = place_of a ot ->
    exists st', s_relink tops st i os ot s t = Val st' /\
      smem cf st' (a_update a i s t) (upd sP i (put_in a i os s)) (upd tP i (put_in a i os t)) /\ same_mem st st'.
  Proof.
    intros R V EM DET PS PT.
    destruct (sm_range _ _ _ _ _ _ _ R EM) as [IR IF].
    assert (I0 : i <> 0) by lia.
    unfold s_relink.
    (* old source *)
    assert (ST1 : exists st1, s_when (negb (os =? 0)) (fun st0 =>
        let* v := s_is_virtual st0 os in
        if v then s_detach_es tops st0 i else s_detach_is tops st0 os i) st = Val st1 /\
        smem cf st1 a (upd sP i Out) tP /\ same_mem st st1).
    { unfold s_when. destruct (N.eqb_spec os 0) as [->|OS]; cbn [negb].
      - exists st. split; auto. split; [|apply same_mem_refl]. eapply smem_pl; [| |exact R]; auto.
        intros x. unfold upd. destruct (N.eqb_spec x i) as [->|]; auto.
      - rewrite (s_is_virtual_ok _ _ _ _ _ _ R V). cbn [obind]. unfold isvirt.
        unfold place_of in PS. destruct (N.eqb_spec os 0); [congruence|].
        destruct (a_map a os); [eapply s_detach_is_ok; eauto|eapply s_detach_es_ok; eauto]. }
    destruct ST1 as (st1 & E1 & R1 & M1). rewrite E1. cbn [obind]. clear E1.
    (* old target *)
    assert (ST2 : exists st2, s_when (negb (ot =? 0)) (fun st0 =>
        let* v := s_is_virtual st0 ot in
        if v then s_detach_et tops st0 i else s_detach_it tops st0 ot i) st1 = Val st2 /\
        smem cf st2 a (upd sP i Out) (upd tP i Out) /\ same_mem st st2).
    { unfold s_when. destruct (N.eqb_spec ot 0) as [->|OT]; cbn [negb].
      - exists st1. split; auto. split; [|exact M1]. eapply smem_pl; [| |exact R1]; auto.
        intros x. unfold upd. destruct (N.eqb_spec x i) as [->|]; auto.
      - rewrite (s_is_virtual_ok _ _ _ _ _ _ R1 V). cbn [obind]. unfold isvirt.
        unfold place_of in PT. destruct (N.eqb_spec ot 0); [congruence|].
        destruct (a_map a ot).
        + destruct (s_detach_it_ok _ _ _ _ _ _ R1 DET PT) as (st2 & E & R2 & M2). exists st2. split; auto. split; auto.
          eapply same_mem_trans; eauto.
        + destruct (s_detach_et_ok _ _ _ _ _ R1 DET PT) as (st2 & E & R2 & M2). exists st2. split; auto. split; auto.
          eapply same_mem_trans; eauto. }
    destruct ST2 as (st2 & E2 & R2 & M2). rewrite E2. cbn [obind]. clear E2 st1 R1 M1.
    (* new ends *)
    set (virt := fun v => if (v =? i) && negb (os =? 0) then true else isvirt a v).
    assert (VIRT : forall v, s_is_virtual st2 v = Val (virt v)).
    { intros v. unfold virt. destruct (N.eqb_spec v i) as [->|NE]; cbn [andb].
      - destruct (N.eqb_spec os 0) as [->|OS]; cbn [negb].
        + unfold s_is_virtual, isvirt. destruct (N.eqb_spec i 0); [contradiction|].
          eapply s_is_unused_ok; eauto. intros s' t' E. left. congruence.
        + unfold s_is_virtual, s_is_unused. rewrite (s_header_ok _ _ _ _ _ R2). cbn [obind].
          rewrite (sm_alloc _ _ _ _ _ R2), (sm_first _ _ _ _ _ R2).
          destruct (N.leb_spec i (a_top a)); [|lia]. cbn [andb].
          destruct (N.eqb_spec (hd 0 (a_free a)) i) as [E|E]; cbn [negb].
          { destruct (a_free a) as [|y fl] eqn:EF; cbn [hd] in E; [congruence|]. exfalso. apply IF. rewrite <- E. now left. }
          pose proof (sm_len _ _ _ _ _ R2). rewrite rd_ok by lia. cbn [obind].
          rewrite (s_get_data_ok _ _ _ _ _ _ R2) by lia. cbn [obind]. rewrite (sm_data _ _ _ _ _ R2 _ _ EM). cbn [fst].
          rewrite (fo_out _ _ _ _ _ _ (sm_tgt _ _ _ _ _ R2) i I0 (upd_same _ _ _ _)). cbn [nz nd0].
          destruct (N.eqb_spec os 0); [contradiction|reflexivity].
      - unfold s_is_virtual, isvirt. destruct (N.eqb_spec v 0) as [->|V0]; [eapply s_is_unused_0; eauto|].
        eapply s_is_unused_ok; eauto. intros s' t' E. rewrite upd_other by auto. eapply V; eauto. }
    assert (PUT : forall v, v <> 0 -> put_in a i os v = if virt v then Ext else Int v).
    { intros v V0. unfold put_in, virt. destruct ((v =? i) && negb (os =? 0)); auto. unfold place_of, isvirt.
      destruct (N.eqb_spec v 0); [contradiction|]. destruct (a_map a v); auto. }
    assert (PUT0 : put_in a i os 0 = Out).
    { unfold put_in. destruct (N.eqb_spec 0 i); [congruence|reflexivity]. }
    assert (REAL : forall v, v <> 0 -> virt v = false -> a_map a v <> None).
    { intros v V0 K. unfold virt in K. destruct ((v =? i) && negb (os =? 0)); [discriminate|]. unfold isvirt in K.
      destruct (N.eqb_spec v 0); [contradiction|]. destruct (a_map a v); [discriminate|discriminate]. }
    rewrite (VIRT s), (VIRT t). cbn [obind].
    rewrite (s_get_data_ok _ _ _ _ _ _ R2) by lia. cbn [obind].
    set (a' := a_update a i s t).
    assert (R3 := smem_write _ _ _ _ i _ s t R2 EM (upd_same _ _ _ _) (upd_same _ _ _ _)). fold a' in R3.
    set (st3 := s_set_data st2 _) in *.
    assert (M3 : same_mem st st3) by exact M2.
    assert (EM' : a_map a' i = Some (s, t)) by (cbn; apply upd_same).
    assert (DM : forall v, a_map a' v = None <-> a_map a v = None).
    { intros v. cbn [a' a_map a_update]. unfold upd. destruct (N.eqb_spec v i) as [->|]; [|tauto]. split; congruence. }
    assert (UU : forall (pl : N -> place) p x, upd (upd pl i Out) i p x = upd pl i p x).
    { intros pl p x. unfold upd. destruct (x =? i); auto. }
    assert (ST4 : exists st4, s_when (negb (s =? 0)) (fun st0 =>
        if virt s then s_attach_es tops st0 i else s_attach_is tops st0 s i) st3 = Val st4 /\
        smem cf st4 a' (upd sP i (put_in a i os s)) (upd tP i Out) /\ same_mem st st4).
    { unfold s_when. destruct (N.eqb_spec s 0) as [->|S0]; cbn [negb].
      - exists st3. rewrite PUT0. auto.
      - rewrite (PUT s S0). destruct (virt s) eqn:ES.
        + destruct (s_attach_es_ok st3 a' _ _ i R3) as (st4 & E4 & R4 & M4).
          { exists s, t. auto. }
          { apply upd_same. }
          exists st4. split; auto. split; [|eapply same_mem_trans; eauto].
          eapply smem_pl; [| |exact R4]; auto.
        + destruct (s_attach_is_ok st3 a' _ _ s t i R3 EM' S0) as (st4 & E4 & R4 & M4).
          { rewrite DM. now apply REAL. }
          { apply upd_same. }
          exists st4. split; auto. split; [|eapply same_mem_trans; eauto].
          eapply smem_pl; [| |exact R4]; auto. }
    destruct ST4 as (st4 & E4 & R4 & M4). rewrite E4. cbn [obind]. clear E4.
    unfold s_when. destruct (N.eqb_spec t 0) as [->|T0]; cbn [negb].
    - exists st4. rewrite PUT0. auto.
    - rewrite (PUT t T0). destruct (virt t) eqn:ES.
      + destruct (s_attach_et_ok st4 a' _ _ i R4) as (st5 & E5 & R5 & M5).
        { exists s, t. auto. }
        { apply upd_same. }
        exists st5. split; auto. split; [|eapply same_mem_trans; eauto].
        eapply smem_pl; [| |exact R5]; auto.
      + destruct (s_attach_it_ok st4 a' _ _ t s i R4 EM' T0) as (st5 & E5 & R5 & M5).
        { rewrite DM. now apply REAL. }
        { apply upd_same. }
        exists st5. split; auto. split; [|eapply same_mem_trans; eauto].
        eapply smem_pl; [| |exact R5]; auto.
  Qed.

  Lemma s_relink_ok st a sP tP i os ot s t :
    smem cf st a sP tP -> all_placed a tP -> a_map a i = Some (os, ot) -> detachable a i ->
    sP i = place_of a os -> tP i = place_of a ot -> (s = i \/ t = i -> os = 0) ->
    exists st', s_relink tops st i os ot s t = Val st' /\
      smem cf st' (a_update a i s t) (upd sP i (place_of a s)) (upd tP i (place_of a t)) /\ same_mem st st'.
  Proof.
    intros R V EM DET PS PT SELF.
    assert (PUT : forall v, v = s \/ v = t -> put_in a i os v = place_of a v).
    { intros v K. unfold put_in. destruct (N.eqb_spec v i) as [E|]; auto. rewrite SELF; [reflexivity|]. destruct K; subst; auto. }
    rewrite <- (PUT s), <- (PUT t) by auto. eapply s_relink_gen; eauto.
  Qed.

  (** ** Free list and header *)
  Lemma s_lhdr_frame st h d :
    (forall y, y <> 0 -> s_is (s_set_lhdr st h d) y = s_is st y) /\
    (forall y, y <> 0 -> s_it (s_set_lhdr st h d) y = s_it st y) /\
    sh_sroot (s_set_lhdr st h d) = sh_sroot st /\ sh_troot (s_set_lhdr st h d) = sh_troot st /\
    nz (s_it (s_set_lhdr st h d) 0) = nz (s_it st 0) /\ s_lhdr (s_set_lhdr st h d) = h /\
    sh_reserved (s_set_lhdr st h d) = sh_reserved st.
  Proof.
    unfold s_lhdr, sh_first, sh_last, sh_free, sh_sroot, sh_troot, sh_reserved. cbn [s_is s_it s_rt s_set_lhdr].
    rewrite !upd_same. cbn [nl nr nz]. repeat split.
    - intros. now apply upd_other.
    - intros. now apply upd_other.
    - destruct h; reflexivity.
  Qed.

  Lemma s_unused_detach_ok st a sP tP i :
    smem cf st a sP tP -> In i (a_free a) ->
    exists st', s_unused_detach lops st i = Val st' /\
      smem cf st' (mkA (a_top a) (lremove i (a_free a)) (upd (a_map a) i (Some (0, 0)))) sP tP /\ same_mem st st'.
  Proof.
    intros R HI. unfold s_unused_detach. rewrite (s_view_ok _ _ _ _ _ R). cbn [obind].
    destruct (l_detach_ok _ LOK _ _ _ _ (sm_list _ _ _ _ _ R) HI) as (h & d & E & L1 & L2 & L3).
    rewrite E. cbn [obind]. eexists. split; [reflexivity|]. split; [|repeat split].
    destruct (s_lhdr_frame st h d) as (F1 & F2 & F3 & F4 & F5 & F6 & F7).
    assert (IR := sm_free _ _ _ _ _ R _ HI).
    assert (IN := sm_none _ _ _ _ _ _ R HI).
    assert (Z0 : ~ In 0 (a_free a)) by (intros K; apply (sm_free _ _ _ _ _ R) in K; lia).
    assert (DM : forall j p, a_map a j = Some p -> d j = s_data st j).
    { intros j p K. apply L3. destruct (sm_range _ _ _ _ _ _ _ R K). auto. }
    assert (NI : forall x, a_map a x <> None -> upd (a_map a) i (Some (0, 0)) x = a_map a x).
    { intros x K. apply upd_other. congruence. }
    constructor; cbn [a_top a_free a_map]; try exact (sm_data0 _ _ _ _ _ R); try apply R.
    - rewrite F6. exact L1.
    - intros j. rewrite upd_none_iff by discriminate. rewrite (sm_dom _ _ _ _ _ R), in_lremove.
      destruct (N.eq_dec j i) as [->|]; tauto.
    - intros j K. apply in_lremove in K. apply (sm_free _ _ _ _ _ R). tauto.
    - intros j p. cbn [s_data s_set_lhdr]. unfold upd. destruct (N.eqb_spec j i) as [->|].
      + congruence.
      + intros K. rewrite (DM _ _ K). now apply (sm_data _ _ _ _ _ R).
    - rewrite F3. eapply forest_ext; [| | | |apply (sm_src _ _ _ _ _ R)]; auto.
      intros x X. apply (sp_ok_psrc a) in X as (s & t & K & _); [|apply R].
      unfold key_src, key_is. cbn [s_data s_set_lhdr]. rewrite (DM _ _ K). auto.
    - rewrite F4. eapply forest_ext; [| | | |apply (sm_tgt _ _ _ _ _ R)]; auto.
      intros x X. apply (tp_ok_ptgt a) in X as (s & t & K & _); [|apply R].
      unfold key_tgt, key_it. cbn [s_data s_set_lhdr]. rewrite (DM _ _ K). auto.
    - intros x. pose proof (sm_sp _ _ _ _ _ R x) as O. destruct (sP x) as [| |v]; auto.
      + unfold psrc in *. cbn [a_map]. rewrite NI; auto. destruct O as (s & t & O & _). congruence.
      + cbn [a_map]. destruct O as ((t & O1) & O2 & O3). rewrite !NI by congruence. eauto.
    - intros x. pose proof (sm_tp _ _ _ _ _ R x) as O. destruct (tP x) as [| |v]; auto.
      + unfold ptgt in *. cbn [a_map]. rewrite NI; auto. destruct O as (s & t & O & _). congruence.
      + cbn [a_map]. destruct O as ((t & O1) & O2 & O3). rewrite !NI by congruence. eauto.
    - intros j Hj. cbn [s_data s_set_lhdr]. rewrite L3 by (intros K; apply (sm_free _ _ _ _ _ R) in K; lia).
      now apply (sm_beyond _ _ _ _ _ R).
    - cbn [s_data s_set_lhdr]. rewrite L3 by auto. exact (sm_data0 _ _ _ _ _ R).
  Qed.

  (** Placements stay legal when an unreferenced empty link disappears. *)
  Lemma sp_ok_drop a sP i n fl : sp_ok a sP -> a_map a i = Some (0, 0) -> (forall x, sP x <> Int i) ->
    sp_ok (mkA n fl (upd (a_map a) i None)) sP.
  Proof.
    intros O EM NI x. pose proof (O x) as K. pose proof (NI x) as N. destruct (sP x) as [| |v]; auto.
    - unfold psrc in *. cbn [a_map]. destruct K as (s & t & K1 & K2). exists s, t. rewrite upd_other by congruence. auto.
    - cbn [a_map]. destruct K as ((t & K1) & K2 & K3).
      assert (v <> i) by congruence. rewrite !upd_other by congruence. eauto.
  Qed.
  Lemma tp_ok_drop a tP i n fl : tp_ok a tP -> a_map a i = Some (0, 0) -> (forall x, tP x <> Int i) ->
    tp_ok (mkA n fl (upd (a_map a) i None)) tP.
  Proof.
    intros O EM NI x. pose proof (O x) as K. pose proof (NI x) as N. destruct (tP x) as [| |v]; auto.
    - unfold ptgt in *. cbn [a_map]. destruct K as (s & t & K1 & K2). exists s, t. rewrite upd_other by congruence. auto.
    - cbn [a_map]. destruct K as ((t & K1) & K2 & K3).
      assert (v <> i) by congruence. rewrite !upd_other by congruence. eauto.
  Qed.

  Lemma s_unused_attach_ok st a sP tP i :
    smem cf st a sP tP -> a_map a i = Some (0, 0) -> (forall x, sP x <> Int i) -> (forall x, tP x <> Int i) ->
    exists st', s_unused_attach lops st i = Val st' /\
      smem cf st' (mkA (a_top a) (i :: a_free a) (upd (a_map a) i None)) sP tP /\ same_mem st st'.
  Proof.
    intros R EM NS NT. destruct (sm_range _ _ _ _ _ _ _ R EM) as [IR NI].
    unfold s_unused_attach. rewrite (s_view_ok _ _ _ _ _ R). cbn [obind].
    destruct (l_attach_ok _ LOK _ _ _ i (sm_list _ _ _ _ _ R)) as (h & d & E & L1 & L3); [lia|auto|].
    rewrite E. cbn [obind]. eexists. split; [reflexivity|]. split; [|repeat split].
    destruct (s_lhdr_frame st h d) as (F1 & F2 & F3 & F4 & F5 & F6 & F7).
    assert (Z0 : ~ In 0 (a_free a)) by (intros K; apply (sm_free _ _ _ _ _ R) in K; lia).
    assert (DM : forall j p, j <> i -> a_map a j = Some p -> d j = s_data st j).
    { intros j p N K. apply L3; auto. destruct (sm_range _ _ _ _ _ _ _ R K). auto. }
    constructor; cbn [a_top a_free a_map]; try exact (sm_data0 _ _ _ _ _ R); try apply R.
    - rewrite F6. exact L1.
    - intros j. rewrite upd_none_none. rewrite (sm_dom _ _ _ _ _ R). cbn [In]. intuition.
    - intros j [<-|K]; [lia|]. now apply (sm_free _ _ _ _ _ R).
    - intros j p. cbn [s_data s_set_lhdr]. unfold upd. destruct (N.eqb_spec j i) as [->|]; [congruence|].
      intros K. rewrite (DM _ _ n K). now apply (sm_data _ _ _ _ _ R).
    - rewrite F3. eapply forest_ext; [| | | |apply (sm_src _ _ _ _ _ R)]; auto.
      intros x X. apply (sp_ok_psrc a) in X as (s & t & K & K'); [|apply R].
      unfold key_src, key_is. cbn [s_data s_set_lhdr]. rewrite (DM x (s, t)); auto. congruence.
    - rewrite F4. eapply forest_ext; [| | | |apply (sm_tgt _ _ _ _ _ R)]; auto.
      intros x X. apply (tp_ok_ptgt a) in X as (s & t & K & K'); [|apply R].
      unfold key_tgt, key_it. cbn [s_data s_set_lhdr]. rewrite (DM x (s, t)); auto. congruence.
    - apply sp_ok_drop; auto. apply R.
    - apply tp_ok_drop; auto. apply R.
    - intros j Hj. cbn [s_data s_set_lhdr]. rewrite L3; [now apply (sm_beyond _ _ _ _ _ R)|lia|].
      intros K; apply (sm_free _ _ _ _ _ R) in K; lia.
    - cbn [s_data s_set_lhdr]. rewrite L3; [exact (sm_data0 _ _ _ _ _ R)|lia|auto].
  Qed.

  (** A change of the header's [allocated] field. *)
  Lemma s_alloc_frame st n :
    s_is (s_set_alloc st n) = s_is st /\ s_it (s_set_alloc st n) = s_it st /\ s_data (s_set_alloc st n) = s_data st /\
    s_rt (s_set_alloc st n) = s_rt st /\ (forall v, v <> 0 -> s_rs (s_set_alloc st n) v = s_rs st v) /\
    sh_alloc (s_set_alloc st n) = n.
  Proof.
    repeat split.
    - intros v V. cbn [s_rs s_set_alloc s_set_src]. now apply upd_other.
  Qed.

  Lemma s_lower_ok st a sP tP :
    smem cf st a sP tP -> 1 <= a_top a -> a_map a (a_top a) = Some (0, 0) ->
    (forall x, sP x <> Int (a_top a)) -> (forall x, tP x <> Int (a_top a)) ->
    smem cf (s_set_alloc st (a_top a - 1)) (mkA (a_top a - 1) (a_free a) (upd (a_map a) (a_top a) None)) sP tP.
  Proof.
    intros R T1 EM NS NT. set (n := a_top a) in *.
    destruct (sm_range _ _ _ _ _ _ _ R EM) as [_ NI].
    destruct (s_alloc_frame st (n - 1)) as (F1 & F2 & F3 & F4 & F5 & F6).
    pose proof (sm_iend _ _ _ _ _ R). pose proof (sm_len _ _ _ _ _ R). fold n in H, H0.
    constructor; cbn [a_top a_free a_map]; try exact (sm_data0 _ _ _ _ _ R); try apply R.
    - exact F6.
    - lia.
    - change (n - 1 < s_ilen st). lia.
    - intros j. rewrite upd_none_none, (sm_dom _ _ _ _ _ R). fold n. split.
      + intros [K1 [K2 K3]]. split; [lia|auto].
      + intros [K1 K2]. split; [lia|]. split; [lia|auto].
    - intros j K. pose proof (sm_free _ _ _ _ _ R _ K). fold n in H1. assert (j <> n) by congruence. lia.
    - intros j p. unfold upd. destruct (N.eqb_spec j n); [congruence|]. rewrite F3. apply R.
    - eapply forest_ext; [| | | |apply (sm_src _ _ _ _ _ R)]; auto.
    - apply sp_ok_drop; auto. apply R.
    - apply tp_ok_drop; auto. apply R.
    - intros j Hj. rewrite F3. destruct (N.eq_dec j n) as [->|].
      + now apply (sm_data _ _ _ _ _ R).
      + apply (sm_beyond _ _ _ _ _ R). fold n. lia.
  Qed.

  (** The trim loop. *)
  Lemma s_trim_ok : forall n fuel st a sP tP,
    smem cf st a sP tP -> all_placed a tP -> N.to_nat (a_top a) = n -> (n < fuel)%nat ->
    exists st', s_trim lops fuel st = Val st' /\
      smem cf st' (mkA (top_of (a_map a) n)
                      (filter (fun x => x <? top_of (a_map a) n) (a_free a)) (a_map a)) sP tP /\ same_mem st st'.
  Proof.
    induction n as [|n IH]; intros fuel st a sP tP R V TN F; destruct fuel as [|fuel]; try lia; cbn [s_trim].
    - rewrite (s_header_ok _ _ _ _ _ R). cbn [obind]. rewrite (sm_alloc _ _ _ _ _ R).
      assert (Z : a_top a = 0) by lia. rewrite Z. cbn [N.ltb N.compare obind negb].
      exists st. split; [reflexivity|]. split; [|apply same_mem_refl]. cbn [top_of].
      eapply smem_ext; [| | |exact R]; auto. cbn [a_free].
      destruct (a_free a) as [|x l] eqn:EF; [reflexivity|]. exfalso.
      assert (K : In x (a_free a)) by (rewrite EF; now left). apply (sm_free _ _ _ _ _ R) in K. lia.
    - rewrite (s_header_ok _ _ _ _ _ R). cbn [obind]. rewrite (sm_alloc _ _ _ _ _ R).
      assert (TE : a_top a = N.of_nat (S n)) by lia.
      destruct (N.ltb_spec 0 (a_top a)) as [_|]; [|lia].
      rewrite (s_is_unused_ok _ _ _ _ _ _ R) by (lia || apply V). cbn [obind top_of]. rewrite <- TE.
      destruct (a_map a (a_top a)) as [p|] eqn:EM; cbn [negb].
      + exists st. split; [reflexivity|]. split; [|apply same_mem_refl].
        eapply smem_ext; [| | |exact R]; auto. cbn [a_free].
        assert (NI : ~ In (a_top a) (a_free a)) by (apply (sm_dom _ _ _ _ _ R); congruence).
        assert (AL : forall x, In x (a_free a) -> (x <? a_top a) = true).
        { intros x K. apply N.ltb_lt. pose proof (sm_free _ _ _ _ _ R _ K).
          assert (x <> a_top a) by congruence. lia. }
        clear -AL. induction (a_free a) as [|x l IH]; simpl; [reflexivity|].
        rewrite (AL x) by now left. rewrite IH; [reflexivity|]. intros; apply AL; now right.
      + assert (HI : In (a_top a) (a_free a)).
        { destruct (in_dec N.eq_dec (a_top a) (a_free a)); auto. exfalso.
          assert (K : a_map a (a_top a) <> None) by (apply (sm_dom _ _ _ _ _ R); split; [lia|auto]). congruence. }
        assert (NS : forall x, sP x <> Int (a_top a)).
        { intros x K. pose proof (sm_sp _ _ _ _ _ R x) as O. rewrite K in O. tauto. }
        assert (NT : forall x, tP x <> Int (a_top a)).
        { intros x K. pose proof (sm_tp _ _ _ _ _ R x) as O. rewrite K in O. tauto. }
        destruct (s_unused_detach_ok _ _ _ _ _ R HI) as (st1 & E1 & R1 & M1).
        rewrite E1. cbn [obind]. rewrite csub_ok by lia. cbn [obind].
        apply s_lower_ok in R1; cbn [a_top a_map] in *; auto; [|lia|apply upd_same].
        specialize (IH fuel _ _ _ _ R1). cbn [a_top a_free a_map] in IH.
        destruct IH as (st2 & E2 & R2 & M2); [|lia|lia|].
        { intros v s t. cbn [a_map]. unfold upd. destruct (v =? a_top a); [discriminate|]. apply V. }
        exists st2. split; [exact E2|]. split; [|eapply same_mem_trans; eauto].
        assert (ET : top_of (upd (upd (a_map a) (a_top a) (Some (0, 0))) (a_top a) None) n = top_of (a_map a) n).
        { apply top_of_ext. intros i Hi. rewrite !upd_other by lia. reflexivity. }
        rewrite ET in R2.
        pose proof (top_of_le (a_map a) n).
        eapply smem_ext; [| | |exact R2]; cbn [a_top a_free a_map]; auto.
        * symmetry. apply filter_lremove. apply N.ltb_ge. lia.
        * intros i. unfold upd. destruct (N.eqb_spec i (a_top a)) as [->|]; auto.
  Qed.
End Ops.
