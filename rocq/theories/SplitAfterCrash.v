(** Proofs of the claims about a two-memory store that is used on after interrupted updates,
    creations and deletions (C86). *)
From Coq Require Import NArith List Bool Lia Permutation Sorted.
From Verif Require Import Base Trees Lists TreeInv Spec Iface UnitModel UnitInv UnitOps LinkModel SplitModel Forest
  SplitInv SplitReads SplitOps SplitWrites SplitLinks Doublets DoubletsOK Obs Hist Claims UnitHist TreeImpl SplitHist SplitCrash SplitCrashClaims SplitScars.
From Verif Require Scars SplitLife AfterCrash.
Import ListNotations.
Open Scope N_scope.

Section Life.
  Variables (cf : cfg) (tops : tree_ops) (lops : list_ops).
  Notation S := (split_links cf tops lops).

  (** The memories [st1] opened again; there is room for the links in the capacity chosen then. *)
  Definition reopened (st1 st' : sst) : Prop :=
    sh_alloc st1 < s_capacity cf (sh_alloc st1) /\
    exists orc, both_or_none orc /\ s_open cf (s_persist st1 orc) = Val (Ok st').
  (** The pairs stored before are still there; the others are the links that can be read. *)
  Definition gained (st' : sst) (D D' : stored) : Prop :=
    (forall j, D j <> None -> D' j = D j) /\
    (forall j s t, D j = None -> (D' j = Some (s, t) <-> is_link S st' j s t)).
  (** The same of all indices but [i]. *)
  Definition gained_but (st' : sst) (D D' : stored) (i : N) : Prop :=
    (forall j, j <> i -> D j <> None -> D' j = D j) /\
    (forall j s t, j <> i -> D j = None -> (D' j = Some (s, t) <-> is_link S st' j s t)).
  (** A link that can be read, is where the store looks for it, and shares its pair with no other
      link of the trees it is in. *)
  Record may_update (D : stored) (sP tP : N -> place) (i os ot : N) : Prop := {
    mu_pair : D i = Some (os, ot);
    mu_read : readable D tP i = true;
    mu_s : sP i = home D tP os;
    mu_t : tP i = home D tP ot;
    mu_lone : tree_lone D sP i /\ tree_lone D tP i
  }.

  (** One step of the use of a store, given the stored pairs [D] and in which tree of sources
      ([sP]) and of targets ([tP]) each link is: a creation; a change of a link that
      [may_update]; a deletion of a link that [may_delete]; opening the memories again; and an
      update, a creation or a deletion that is interrupted anywhere, with the memories opened
      again. *)
  Inductive cstep (st : sst) (D : stored) (sP tP : N -> place) : sst -> stored -> (N -> place) -> (N -> place) -> Prop :=
  | cs_create H (h : whandler H) q x st' x' r D' :
      li_create S H h q st x = Val (st', x', r) -> gained st' D D' -> cstep st D sP tP st' D' sP tP
  | cs_update i os ot s t H (h : whandler H) x st' x' r D' sP' tP' :
      may_update D sP tP i os ot -> li_update S H h [i] [i; s; t] st x = Val (st', x', r) ->
      (forall j, D' j = upd D i (Some (s, t)) j) ->
      (forall j, sP' j = upd sP i (home D (upd tP i Out) s) j) ->
      (forall j, tP' j = upd tP i (home D (upd tP i Out) t) j) -> cstep st D sP tP st' D' sP' tP'
  | cs_delete i os ot H (h : whandler H) x st' x' r D' sP' tP' :
      may_delete D sP tP i os ot -> li_delete S H h [i] st x = Val (st', x', r) ->
      (forall j, D' j = upd D i None j) ->
      (forall j, sP' j = upd (SplitWrites.moved i sP) i Out j) ->
      (forall j, tP' j = upd (SplitWrites.moved i tP) i Out j) -> cstep st D sP tP st' D' sP' tP'
  | cs_reopen st' : reopened st st' -> cstep st D sP tP st' D sP tP
  | cs_stop_update i os ot s t k st1 st' D' sP' tP' : may_update D sP tP i os ot ->
      s_stop tops st i os ot s t k = Val st1 -> reopened st1 st' ->
      (forall j, D' j = upd D i (Some (s_fields k os ot s t)) j) ->
      (forall j, sP' j = stop_s D sP tP i s k j) -> (forall j, tP' j = stop_t D tP i t k j) -> cstep st D sP tP st' D' sP' tP'
  | cs_stop_create st1 st' D' :
      s_create_point cf tops lops st st1 -> reopened st1 st' -> gained st' D D' -> cstep st D sP tP st' D' sP tP
  | cs_stop_delete i os ot p st1 st' D' sP' tP' : may_delete D sP tP i os ot ->
      s_delete_at cf tops lops st i os ot p st1 -> reopened st1 st' ->
      D' i = del_pair os ot p -> gained_but st' D D' i ->
      del_places cf tops st D i os ot p sP tP sP' tP' -> cstep st D sP tP st' D' sP' tP'.

  (** A store with a history without interruptions, then any number of such steps. *)
  Inductive clife : sst -> stored -> (N -> place) -> (N -> place) -> Prop :=
  | cl_start st d D sP tP : s_hist cf tops lops st d ->
      (forall i s t, D i = Some (s, t) <-> is_link S st i s t) ->
      (forall i, D i <> None -> readable D tP i = true) ->
      (forall i, sP i = match D i with Some (s, _) => home D tP s | None => Out end) ->
      (forall i, tP i = match D i with Some (_, t) => home D tP t | None => Out end) ->
      clife st D sP tP
  | cl_step st D sP tP st' D' sP' tP' : clife st D sP tP -> cstep st D sP tP st' D' sP' tP' -> clife st' D' sP' tP'.
  (** Any number of steps. *)
  Inductive csteps (st : sst) (D : stored) (sP tP : N -> place) : sst -> stored -> (N -> place) -> (N -> place) -> Prop :=
  | css_refl : csteps st D sP tP st D sP tP
  | css_step st1 D1 sP1 tP1 st' D' sP' tP' : csteps st D sP tP st1 D1 sP1 tP1 -> cstep st1 D1 sP1 tP1 st' D' sP' tP' ->
      csteps st D sP tP st' D' sP' tP'.
End Life.

Section P.
  Variables (cf : cfg) (tops : tree_ops) (lops : list_ops).
  Hypothesis ENV : unit_env cf tops lops.
  Let CF : cfg_ok cf := proj1 ENV.
  Notation S := (split_links cf tops lops).

  Definition cinv (st : sst) (D : stored) (sP tP : N -> place) : Prop :=
    both_or_none (s_orc st) /\ exists top fr, smem cf st (mkA top fr D) sP tP.

  Lemma cinv_of st a D sP tP : both_or_none (s_orc st) -> smem cf st a sP tP -> (forall j, D j = a_map a j) -> cinv st D sP tP.
  Proof.
    intros B R E. split; auto. exists (a_top a), (a_free a). eapply smem_ext; [| | |exact R]; auto.
  Qed.
  Lemma cinv_pl st a D sP tP sP' tP' : both_or_none (s_orc st) -> smem cf st a sP tP -> (forall j, D j = a_map a j) ->
    (forall j, sP' j = sP j) -> (forall j, tP' j = tP j) -> cinv st D sP' tP'.
  Proof. intros B R E ES ET. eapply cinv_of; eauto. eapply smem_pl; [| |exact R]; auto. Qed.

  Lemma c_get st D sP tP i : cinv st D sP tP -> li_get S st i = Val (olink i (seen D tP i)).
  Proof. intros (_ & top & fr & R). exact (m_get cf tops lops ENV _ _ _ _ i R). Qed.
  Lemma c_link st D sP tP i s t : cinv st D sP tP -> (is_link S st i s t <-> seen D tP i = Some (s, t)).
  Proof.
    intros K. unfold is_link. rewrite (c_get _ _ _ _ i K). destruct (seen D tP i) as [[x y]|]; cbn [olink].
    - split; intros E; congruence.
    - split; discriminate.
  Qed.
  Lemma c_none st D sP tP i : cinv st D sP tP -> (no_link S st i <-> seen D tP i = None).
  Proof.
    intros K. unfold no_link. rewrite (c_get _ _ _ _ i K). destruct (seen D tP i) as [[x y]|]; cbn [olink].
    - split; intros E; congruence.
    - tauto.
  Qed.
  Lemma c_linked st D sP tP i : cinv st D sP tP -> (linked S st i <-> readable D tP i = true).
  Proof.
    intros K. unfold linked. setoid_rewrite (c_link _ _ _ _ _ _ _ K). unfold seen. destruct (readable D tP i) eqn:E.
    - apply readable_some in E. destruct (D i) as [[s t]|]; [|contradiction]. split; eauto.
    - split; [intros (s & t & X); discriminate|discriminate].
  Qed.

  Lemma c_reopen st1 a D sP tP sP' tP' st' : smem cf st1 a sP tP -> reopened cf st1 st' -> (forall j, D j = a_map a j) ->
    (forall j, sP' j = sP j) -> (forall j, tP' j = tP j) -> cinv st' D sP' tP'.
  Proof.
    intros R (LT & orc & B & E) ED ES ET. rewrite (sm_alloc _ _ _ _ _ R) in LT.
    pose proof (reopen_smem cf tops lops ENV _ _ _ _ _ _ _ (same_cells_same st1) R LT E) as R2.
    eapply cinv_pl; eauto.
    destruct (s_open_cond cf tops lops ENV _ _ E) as (T & O1 & O2).
    assert (HA : sh_alloc (s_persist st1 orc) = a_top a) by exact (sm_alloc _ _ _ _ _ R). rewrite HA in T, O2.
    destruct (s_open_smem cf CF (s_persist st1 orc) st1 a sP tP) as (st3 & E3 & _ & _ & O); auto.
    { repeat split; auto. }
    assert (st3 = st') as -> by congruence. rewrite O. now apply both_shift.
  Qed.

  (** What a creation does to the stored pairs, given what can be read afterwards. *)
  Lemma c_gained st a sP tP st' D D' b : smem cf st a sP tP -> (forall j, D j = a_map a j) -> gained cf tops lops st' D D' ->
    both_or_none (s_orc st') -> smem cf st' b sP tP -> b = a \/ b = a_create a -> cinv st' D' sP tP.
  Proof.
    intros R ED (G1 & G2) B R' C. eapply cinv_of; eauto.
    assert (K : cinv st' (a_map b) sP tP) by (eapply cinv_of; eauto).
    assert (E1 : forall j, D j <> None -> a_map b j = D j).
    { intros j J. rewrite ED in *. destruct C as [->| ->]; auto. eapply m_create_map; eauto. }
    intros j. destruct (D j) as [p|] eqn:DJ; [rewrite G1, E1 by congruence; auto|].
    assert (DB : seen (a_map b) tP j = a_map b j).
    { unfold seen. destruct (readable (a_map b) tP j) eqn:RD; auto. destruct C as [->| ->]; [congruence|].
      rewrite a_create_map. unfold readable in RD. rewrite a_create_map in RD. unfold upd in *.
      destruct (j =? a_next a); [discriminate|congruence]. }
    destruct (D' j) as [[s t]|] eqn:D'J.
    - apply (G2 j s t DJ) in D'J. apply (c_link _ _ _ _ _ _ _ K) in D'J. congruence.
    - destruct (a_map b j) as [[s t]|] eqn:BJ; auto. exfalso. assert (X : D' j = Some (s, t)); [|congruence].
      apply (G2 j s t DJ). apply (c_link _ _ _ _ _ _ _ K). congruence.
  Qed.

  Lemma cstep_inv st D sP tP st2 D2 sP2 tP2 : cinv st D sP tP -> cstep cf tops lops st D sP tP st2 D2 sP2 tP2 -> cinv st2 D2 sP2 tP2.
  Proof.
    intros IH ST. destruct ST as [H h q x st' x' r D' E G
      |i os ot s t H h x st' x' r D' sP' tP' MU E ED ES ET
      |i os ot H h x st' x' r D' sP' tP' MD E ED ES ET
      |st' RE
      |i os ot s t k st1 st' D' sP' tP' MU E RE ED ES ET
      |st1 st' D' CP RE G
      |i os ot p st1 st' D' sP' tP' MD AT RE ED G PL].
    - destruct IH as (B & top & fr & R). cbn [li_create split_links] in E.
      destruct (m_create cf tops lops ENV _ _ _ _ q R B) as [(_ & _ & F)|[(_ & _ & st2 & R2 & B2 & _ & F)|[(_ & _ & _ & F)|(st2 & R2 & B2 & F)]]].
      + rewrite F in E. injection E as <- _ _. eapply (c_gained _ _ _ _ st D D' _ R); eauto.
      + rewrite F in E. injection E as <- _ _. eapply (c_gained _ _ _ _ st2 D D' _ R); eauto.
      + rewrite F in E. discriminate.
      + rewrite F in E. destruct (h x nothing _). injection E as <- _ _. eapply (c_gained _ _ _ _ st2 D D' _ R); eauto.
    - destruct IH as (B & top & fr & R). destruct MU as [MP MR MS MT ML].
      destruct (m_update cf tops lops ENV st _ _ _ i os ot s t R MP MR ML MS MT) as (st2 & R2 & M2 & F).
      cbn [li_update split_links] in E. rewrite F in E. destruct (h x (mkLink i os ot) (mkLink i s t)). injection E as <- _ _.
      assert (OE : s_orc st2 = s_orc st) by apply M2.
      eapply cinv_pl; [rewrite OE; exact B|exact R2|exact ED|exact ES|exact ET].
    - destruct IH as (B & top & fr & R).
      destruct (m_delete cf tops lops ENV st _ _ _ i os ot R MD) as (st2 & R2 & M2 & F).
      cbn [li_delete split_links] in E. rewrite F in E. destruct (h x (mkLink i os ot) nothing). injection E as <- _ _.
      assert (OE : s_orc st2 = s_orc st) by apply M2.
      eapply cinv_pl; [rewrite OE; exact B|exact R2| |exact ES|exact ET]. intros j. rewrite a_delete_map. apply ED.
    - destruct IH as (B & top & fr & R). eapply c_reopen; eauto.
    - destruct IH as (B & top & fr & R). destruct MU as [MP MR MS MT ML].
      destruct (m_stop cf tops lops ENV st _ _ _ i os ot s t k R MP ML MS MT) as (st2 & E2 & R2 & _).
      assert (st2 = st1) as -> by congruence. eapply c_reopen; [exact R2|exact RE| |exact ES|exact ET].
      intros j. rewrite ED. destruct (s_fields k os ot s t). reflexivity.
    - destruct IH as (B & top & fr & R).
      assert (SAME : s_same_cells st1 st -> cinv st' D' sP tP).
      { intros SC. destruct RE as (LT & orc & BO & E).
        assert (HA : sh_alloc st1 = top) by (rewrite <- (sm_alloc _ _ _ _ _ R : sh_alloc st = top); apply SC).
        rewrite HA in LT. pose proof (reopen_smem cf tops lops ENV _ _ _ _ _ _ _ SC R LT E) as R2.
        assert (B2 : both_or_none (s_orc st')).
        { destruct (s_open_cond cf tops lops ENV _ _ E) as (T & O1 & O2).
          assert (HA2 : sh_alloc (s_persist st1 orc) = top) by exact HA. rewrite HA2 in T, O2.
          destruct (s_open_smem cf CF (s_persist st1 orc) st (mkA top fr D) sP tP) as (st3 & E3 & _ & _ & O); auto.
          assert (st3 = st') as -> by congruence. rewrite O. now apply both_shift. }
        eapply (c_gained _ _ _ _ st' D D' _ R); eauto. }
      destruct CP as [|st1 b EA|st1 r EG|H h q x st1 x1 r EC].
      + apply SAME, same_cells_same.
      + apply SAME. eapply alloc_cells; eauto.
      + apply SAME. eapply s_grow_cells; eauto.
      + destruct (m_create cf tops lops ENV _ _ _ _ q R B) as [(_ & _ & F)|[(_ & _ & st2 & R2 & B2 & SC & F)|[(_ & _ & _ & F)|(st2 & R2 & B2 & F)]]].
        * rewrite F in EC. injection EC as <- _ _. apply SAME, same_cells_same.
        * rewrite F in EC. injection EC as <- _ _. apply SAME, SC.
        * rewrite F in EC. discriminate.
        * rewrite F in EC. destruct (h x nothing _). injection EC as <- _ _.
          destruct (c_reopen st2 _ (a_map (a_create (mkA top fr D))) _ _ sP tP st' R2 RE) as (B3 & t3 & f3 & R3); auto.
          assert (R4 : smem cf st' (mkA t3 f3 (a_map (a_create (mkA top fr D)))) sP tP) by exact R3.
          assert (K : cinv st' (a_map (a_create (mkA top fr D))) sP tP) by (split; eauto).
          split; auto. exists t3, f3. eapply smem_ext; [| | |exact R3]; auto. intros j. cbn [a_map].
          destruct G as (G1 & G2). destruct (D j) as [pp|] eqn:DJ.
          { rewrite G1 by congruence. symmetry. rewrite (m_create_map cf _ _ _ _ j R) by (cbn; congruence). reflexivity. }
          assert (DB : seen (a_map (a_create (mkA top fr D))) tP j = a_map (a_create (mkA top fr D)) j).
          { unfold seen. destruct (readable _ tP j) eqn:RD; auto. unfold readable in RD. rewrite a_create_map in RD |- *.
            unfold upd in *. destruct (j =? a_next _); [discriminate|cbn [a_map]; congruence]. }
          destruct (D' j) as [[s t]|] eqn:D'J.
          -- apply (G2 j s t DJ) in D'J. apply (c_link _ _ _ _ _ _ _ K) in D'J. congruence.
          -- destruct (a_map (a_create (mkA top fr D)) j) as [[s t]|] eqn:BJ; auto. exfalso. assert (X : D' j = Some (s, t)); [|congruence].
             apply (G2 j s t DJ). apply (c_link _ _ _ _ _ _ _ K). congruence.
    - destruct IH as (B & top & fr & R).
      destruct (m_delete_at cf tops lops ENV st _ _ _ sP' tP' i os ot p st1 R MD AT PL) as (a' & R1 & LE & MI & MJ & MN).
      pose proof (c_reopen st1 a' (a_map a') _ _ sP' tP' st' R1 RE ltac:(auto) ltac:(auto) ltac:(auto)) as K.
      destruct K as (B2 & t2 & f2 & R2). pose proof (conj B2 (ex_intro _ t2 (ex_intro _ f2 R2)) : cinv st' (a_map a') sP' tP') as K.
      split; auto. exists t2, f2. eapply smem_ext; [| | |exact R2]; auto. intros j. cbn [a_map] in *.
      destruct (N.eq_dec j i) as [->|NE]; [congruence|]. destruct G as (G1 & G2).
      specialize (G1 j NE). specialize (G2 j).
      destruct (D j) as [pp|] eqn:DJ; [rewrite G1 by congruence; symmetry; rewrite MJ by (auto; congruence); exact DJ|].
      assert (DB : seen (a_map a') tP' j = a_map a' j).
      { unfold seen. destruct (readable (a_map a') tP' j) eqn:RD; auto. unfold readable in RD.
        destruct (MN j DJ) as [X|[X _]]; rewrite X in *; [auto|discriminate]. }
      destruct (D' j) as [[s t]|] eqn:D'J.
      + assert (X : is_link S st' j s t) by (apply (G2 s t NE eq_refl); reflexivity). apply (c_link _ _ _ _ _ _ _ K) in X. congruence.
      + destruct (a_map a' j) as [[s t]|] eqn:BJ; auto. exfalso. assert (X : None = Some (s, t)); [|congruence].
        apply (G2 s t NE eq_refl). apply (c_link _ _ _ _ _ _ _ K). congruence.
  Qed.

  Theorem clife_inv st D sP tP : clife cf tops lops st D sP tP -> cinv st D sP tP.
  Proof.
    induction 1 as [st d D sP tP HH ED RD ES ET|st D sP tP st' D' sP' tP' HL IH ST]; [|exact (cstep_inv _ _ _ _ _ _ _ _ IH ST)].
    destruct (s_hist_inv cf tops lops ENV st d HH) as (a & K & _). pose proof (f_ok _ _ _ ENV) as OK.
    pose proof K as [(R & W & VI) B].
    assert (EA : forall j, D j = a_map a j).
    { intros j. destruct (D j) as [[s t]|] eqn:DJ.
      - apply ED in DJ. now apply (ob_link cf _ _ _ OK _ _ _ _ _ K) in DJ.
      - destruct (a_map a j) as [[s t]|] eqn:AJ; auto. apply (ob_link cf _ _ _ OK _ _ _ _ _ K) in AJ. apply ED in AJ. congruence. }
    assert (HM : forall v, home D tP v = place_of a v).
    { intros v. unfold home, place_of. destruct (v =? 0); auto. destruct (a_map a v) eqn:AV.
      - rewrite RD; auto. rewrite EA. congruence.
      - unfold readable. now rewrite EA, AV. }
    eapply cinv_pl; [exact B|exact R|exact EA| |].
    - intros j. rewrite ES. unfold spl. rewrite EA. destruct (a_map a j) as [[s t]|]; auto.
    - intros j. rewrite ET. unfold tpl. rewrite EA. destruct (a_map a j) as [[s t]|]; auto.
  Qed.

  (** ** What the queries see *)
  Lemma c_nodes st D sP tP U (p : link -> Prop) : cinv st D sP tP -> NoDup U ->
    (forall i, In i U <-> exists s t, D i = Some (s, t) /\ p (mkLink i s t)) ->
    NoDup (map (link_of (s_data st)) U) /\
    forall l, In l (map (link_of (s_data st)) U) <-> D (l_index l) = Some (l_source l, l_target l) /\ p l.
  Proof.
    intros (_ & top & fr & R) ND HU. split; [now apply map_link_nodup|].
    assert (LO : forall x s t, D x = Some (s, t) -> link_of (s_data st) x = mkLink x s t).
    { intros x s t E. unfold link_of. now rewrite (sm_data _ _ _ _ _ R x _ E). }
    intros [i s t]. cbn [l_index l_source l_target]. rewrite in_map_iff. split.
    - intros (x & E & X). apply HU in X as (s' & t' & X1 & X2). rewrite (LO _ _ _ X1) in E. injection E as <- <- <-. auto.
    - intros [E P]. exists i. split; [now apply LO|]. apply HU. eauto.
  Qed.
  Lemma c_virt st D sP tP v : cinv st D sP tP -> exists b, s_is_virtual st v = Val b /\ (v <> 0 -> b = negb (readable D tP v)).
  Proof.
    intros (_ & top & fr & R). eexists. split; [exact (m_virtual cf _ _ _ _ v R)|]. exact (virt_read _ tP v).
  Qed.
  Lemma c_range st D sP tP v : cinv st D sP tP -> D v <> None -> 1 <= v <= sh_alloc st.
  Proof.
    intros (_ & top & fr & R) K. rewrite (sm_alloc _ _ _ _ _ R). now apply (sm_dom _ _ _ _ _ R).
  Qed.

  Lemma c_by_source st D sP tP v : cinv st D sP tP -> v <> 0 ->
    exists L, NoDup L /\
      (forall l, In l L <-> D (l_index l) = Some (l_source l, l_target l) /\ l_source l = v /\ sP (l_index l) = home D tP v) /\
      (forall H (h : rhandler H) x, (if negb (readable D tP v) then s_es_each st v h x else s_is_each st v h x) = Val (run_handler h L x)) /\
      (readable D tP v = true -> s_is_count st v = Val (N.of_nat (length L))).
  Proof.
    intros K V0. pose proof K as (_ & top & fr & R). destruct (readable D tP v) eqn:RD; cbn [negb].
    - pose proof (m_range cf _ _ _ _ _ R RD) as VR. destruct (s_is_walk _ _ _ _ _ v R V0) as (U & U1 & U2 & U3 & U4); [lia|].
      assert (HV : home D tP v = Int v) by (now apply home_int).
      destruct (c_nodes _ _ _ _ U (fun l => l_source l = v /\ sP (l_index l) = home D tP v) K U1) as [N1 N2].
      { intros i. rewrite U2. cbn [l_index l_source]. rewrite HV. split.
        - intros E. pose proof (sm_sp _ _ _ _ _ R i) as SP. rewrite E in SP. destruct SP as ((t & SP) & _). exists v, t. auto.
        - intros (s & t & E & -> & X). exact X. }
      exists (map (link_of (s_data st)) U). split; auto. split; auto. split; auto. intros _. now rewrite map_length.
    - destruct (s_es_walk _ CF _ _ _ _ v R) as (U & U1 & U2 & U3 & U4).
      assert (HV : home D tP v = Ext) by (now apply home_extern).
      destruct (c_nodes _ _ _ _ U (fun l => l_source l = v /\ sP (l_index l) = home D tP v) K U1) as [N1 N2].
      { intros i. rewrite U2. cbn [l_index l_source]. rewrite HV. split.
        - intros [E X]. pose proof (sm_sp _ _ _ _ _ R i) as SP. rewrite E in SP. destruct SP as (s & t & SP & S0).
          rewrite (sm_data _ _ _ _ _ R _ _ SP) in X. cbn in X. subst s. exists v, t. auto.
        - intros (s & t & E & -> & X). rewrite (sm_data _ _ _ _ _ R i _ E). auto. }
      exists (map (link_of (s_data st)) U). split; auto. split; auto. split; auto. congruence.
  Qed.
  Lemma c_by_target st D sP tP v : cinv st D sP tP -> v <> 0 ->
    exists L, NoDup L /\
      (forall l, In l L <-> D (l_index l) = Some (l_source l, l_target l) /\ l_target l = v /\ tP (l_index l) = home D tP v) /\
      (forall H (h : rhandler H) x, (if negb (readable D tP v) then s_et_each st v h x else s_it_each st v h x) = Val (run_handler h L x)) /\
      (if negb (readable D tP v) then s_et_count cf st v else s_it_count st v) = Val (N.of_nat (length L)).
  Proof.
    intros K V0. pose proof K as (_ & top & fr & R). destruct (readable D tP v) eqn:RD; cbn [negb].
    - pose proof (m_range cf _ _ _ _ _ R RD) as VR. destruct (s_it_walk _ _ _ _ _ v R V0) as (U & U1 & U2 & U3 & U4); [lia|].
      assert (HV : home D tP v = Int v) by (now apply home_int).
      destruct (c_nodes _ _ _ _ U (fun l => l_target l = v /\ tP (l_index l) = home D tP v) K U1) as [N1 N2].
      { intros i. rewrite U2. cbn [l_index l_target]. rewrite HV. split.
        - intros E. pose proof (sm_tp _ _ _ _ _ R i) as SP. rewrite E in SP. destruct SP as ((t & SP) & _). exists t, v. auto.
        - intros (s & t & E & -> & X). exact X. }
      exists (map (link_of (s_data st)) U). split; auto. split; auto. split; auto. now rewrite map_length.
    - destruct (s_et_walk _ CF _ _ _ _ v R) as (U & U1 & U2 & U3 & U4).
      assert (HV : home D tP v = Ext) by (now apply home_extern).
      destruct (c_nodes _ _ _ _ U (fun l => l_target l = v /\ tP (l_index l) = home D tP v) K U1) as [N1 N2].
      { intros i. rewrite U2. cbn [l_index l_target]. rewrite HV. split.
        - intros [E X]. pose proof (sm_tp _ _ _ _ _ R i) as SP. rewrite E in SP. destruct SP as (s & t & SP & S0).
          rewrite (sm_data _ _ _ _ _ R _ _ SP) in X. cbn in X. subst t. exists s, v. auto.
        - intros (s & t & E & -> & X). rewrite (sm_data _ _ _ _ _ R i _ E). auto. }
      exists (map (link_of (s_data st)) U). split; auto. split; auto. split; auto. now rewrite map_length.
  Qed.

  (** The search for a pair: what it answers, and when it finds nothing. *)
  Lemma c_search st D sP tP s t : cinv st D sP tP -> s <> 0 -> t <> 0 ->
    exists r, s_search st (negb (readable D tP s)) (negb (readable D tP t)) s t = Val r /\
      ((r = 0 /\ forall i, D i = Some (s, t) -> sP i <> home D tP s \/ tP i <> home D tP t) \/
       (r <> 0 /\ D r = Some (s, t) /\ (sP r = home D tP s \/ tP r = home D tP t))).
  Proof.
    intros K S0 T0. pose proof K as (_ & top & fr & R).
    assert (R0 : forall r, D r = Some (s, t) -> r <> 0).
    { intros r E ->. assert (X : D 0 <> None) by congruence. apply (c_range _ _ _ _ 0 K) in X. lia. }
    assert (IS : readable D tP s = true -> exists r, s_is_search st s t = Val r /\
      ((r = 0 /\ forall i, D i = Some (s, t) -> sP i <> home D tP s \/ tP i <> home D tP t) \/
       (r <> 0 /\ D r = Some (s, t) /\ (sP r = home D tP s \/ tP r = home D tP t)))).
    { intros RD. assert (HV : home D tP s = Int s) by (now apply home_int).
      pose proof (m_range cf _ _ _ _ _ R RD) as VR.
      destruct (s_is_search_ok _ _ _ _ _ s t R S0) as (r & E1 & C); [lia|]. exists r. split; auto.
      destruct C as [[-> C]|[C1 C2]].
      - left. split; auto. intros i EI. left. intros X. apply (C i); [congruence|exact EI].
      - right. split; [now apply R0|]. split; auto. left. congruence. }
    assert (IT : readable D tP t = true -> exists r, s_it_search st s t = Val r /\
      ((r = 0 /\ forall i, D i = Some (s, t) -> sP i <> home D tP s \/ tP i <> home D tP t) \/
       (r <> 0 /\ D r = Some (s, t) /\ (sP r = home D tP s \/ tP r = home D tP t)))).
    { intros RD. assert (HV : home D tP t = Int t) by (now apply home_int).
      pose proof (m_range cf _ _ _ _ _ R RD) as VR.
      destruct (s_it_search_ok _ _ _ _ _ s t R T0) as (r & E1 & C); [lia|]. exists r. split; auto.
      destruct C as [[-> C]|[C1 C2]].
      - left. split; auto. intros i EI. right. intros X. apply (C i); [congruence|exact EI].
      - right. split; [now apply R0|]. split; auto. right. congruence. }
    unfold s_search. destruct (readable D tP s) eqn:RS, (readable D tP t) eqn:RT; cbn [negb andb].
    - pose proof (m_range cf _ _ _ _ _ R RS). pose proof (m_range cf _ _ _ _ _ R RT).
      destruct (s_is_walk _ _ _ _ _ s R S0) as (U1 & _ & _ & _ & C1); [lia|].
      destruct (s_it_walk _ _ _ _ _ t R T0) as (U2 & _ & _ & _ & C2); [lia|].
      rewrite C1, C2. cbn [obind]. destruct (_ <? _); auto.
    - auto.
    - auto.
    - assert (HV : home D tP s = Ext) by (now apply home_extern).
      destruct (s_es_search_ok _ _ _ _ _ s t R) as (r & E1 & C). exists r. split; auto.
      destruct C as [[-> C]|[C1 C2]].
      + left. split; auto. intros i EI. left. intros X. apply (C i); [congruence|exact EI].
      + right. split; [now apply R0|]. split; auto. left. congruence.
  Qed.
End P.

Lemma in_set_links a i s t : Scars.aset a -> (In (mkLink i s t) (alinks a) <-> a_map a i = Some (s, t)).
Proof.
  intros W. unfold alinks. rewrite in_flat_map. split.
  - intros (j & _ & X). destruct (a_map a j) as [[x y]|] eqn:E; [|destruct X]. destruct X as [X|[]]. injection X as <- <- <-. exact E.
  - intros E. exists i. split; [|rewrite E; now left]. apply in_range1. apply (Scars.aset_some _ _ _ W) in E. lia.
Qed.

(** * Claims *)

(** An index shows a link if a pair is stored there and either it has no source or it is in a
    tree of targets; every other index shows none. *)
Lemma L_C86_reads cf tops lops st D sP tP :
  let S := split_links cf tops lops in
  unit_env cf tops lops -> clife cf tops lops st D sP tP ->
  (forall i s t, is_link S st i s t <-> D i = Some (s, t) /\ (s = 0 \/ tP i <> Out)) /\
  (forall i, no_link S st i <-> forall s t, D i = Some (s, t) -> s <> 0 /\ tP i = Out).
Proof.
  intros S ENV HL. subst S. pose proof (clife_inv cf tops lops ENV _ _ _ _ HL) as K. split.
  - intros i s t. rewrite (c_link cf tops lops ENV _ _ _ _ _ _ _ K). apply seen_some.
  - intros i. rewrite (c_none cf tops lops ENV _ _ _ _ _ K), seen_none. unfold readable.
    destruct (D i) as [[s t]|]; [|split; [intros _ s t E; discriminate|reflexivity]].
    split.
    + intros X s' t' [= <- <-]. apply orb_false_iff in X as [X Y]. split; [now apply N.eqb_neq|].
      destruct (tP i); [reflexivity|discriminate|discriminate].
    + intros X. destruct (X s t eq_refl) as [X1 X2]. rewrite X2. apply N.eqb_neq in X1. now rewrite X1.
Qed.

(** A link that cannot be read is lost: no use of the store changes it, removes it, or makes it
    readable again, and its index is never given out. *)
Lemma L_C86_lost cf tops lops st D sP tP st' D' sP' tP' i s t :
  unit_env cf tops lops -> clife cf tops lops st D sP tP -> csteps cf tops lops st D sP tP st' D' sP' tP' ->
  D i = Some (s, t) -> s <> 0 -> tP i = Out ->
  clife cf tops lops st' D' sP' tP' /\ D' i = Some (s, t) /\ tP' i = Out.
Proof.
  intros ENV HL SS DI S0 TI. induction SS as [|st1 D1 sP1 tP1 st' D' sP' tP' SS (IH1 & IH2 & IH3) ST]; [auto|].
  split; [eapply cl_step; eauto|].
  assert (U : readable D1 tP1 i = false).
  { unfold readable. rewrite IH2, IH3. apply N.eqb_neq in S0. now rewrite S0. }
  assert (MV : forall j, SplitWrites.moved j tP1 i = Out).
  { intros j. unfold SplitWrites.moved. rewrite IH3. now destruct (i =? j). }
  destruct ST as [H h q x st' x' r D' E (G1 & _)
      |j os ot s1 t1 H h x st' x' r D' sP' tP' MU E ED ES ET
      |j os ot H h x st' x' r D' sP' tP' MD E ED ES ET
      |st' RE
      |j os ot s1 t1 k st2 st' D' sP' tP' MU E RE ED ES ET
      |st2 st' D' CP RE (G1 & _)
      |j os ot p st2 st' D' sP' tP' MD AT RE ED (G1 & _) PL]; auto.
  - rewrite G1 by congruence. auto.
  - assert (NE : i <> j) by (intros ->; rewrite (mu_read _ _ _ _ _ _ MU) in U; discriminate).
    rewrite ED, ET, !upd_other by auto. auto.
  - assert (NE : i <> j) by (intros ->; rewrite (md_read _ _ _ _ _ _ MD) in U; discriminate).
    rewrite ED, ET, !upd_other by auto. auto.
  - assert (NE : i <> j) by (intros ->; rewrite (mu_read _ _ _ _ _ _ MU) in U; discriminate).
    rewrite ED, ET, upd_other by auto. split; auto. unfold stop_t. do 6 (destruct k as [|k]; [auto; now rewrite upd_other|]). now rewrite upd_other.
  - rewrite G1 by congruence. auto.
  - assert (NE : i <> j) by (intros ->; rewrite (md_read _ _ _ _ _ _ MD) in U; discriminate). split.
    + rewrite G1 by (auto; congruence). auto.
    + destruct p as [r|k| |n|n]; cbn [del_places] in PL.
      2:{ destruct PL as [_ PT]. rewrite PT. unfold stop_t. do 6 (destruct k as [|k]; [auto; now rewrite upd_other|]). now rewrite upd_other. }
      2-4: destruct PL as [_ PT]; now rewrite PT, upd_other.
      destruct (clife_inv cf tops lops ENV _ _ _ _ IH1) as (_ & top & fr & R).
      destruct PL as (u & EU & PL).
      assert (UT : forall st0 w a sP0, users_t cf st0 j = Val w -> smem cf st0 a sP0 tP1 -> readable (a_map a) tP1 j = true ->
                forall n, exted (map l_index (firstn n w)) tP1 i = Out).
      { intros st0 w a sP0 EW R0 RJ n. destruct (m_users_t cf tops lops ENV _ _ _ _ j R0 RJ) as (w' & EW' & _ & IW & _).
        assert (w' = w) as -> by congruence. rewrite exted_other; auto. intros X. apply in_map_iff in X as (k & <- & X).
        apply in_firstn in X. destruct (IW _ X) as [Y _]. congruence. }
      assert (ST0 : forall st0, s_for u (move_s tops j) st1 = Val st0 -> exists sP0, smem cf st0 (mkA top fr D1) sP0 tP1).
      { intros st0 E0. destruct (m_users_s cf tops lops ENV _ _ _ _ j R (md_read _ _ _ _ _ _ MD)) as (u' & EU' & NDU & IU & _).
        assert (u' = u) as -> by congruence.
        destruct (m_move_s cf tops lops ENV _ j tP1 u st1 sP1 R) as (st0' & E0' & R0 & _); auto.
        { intros k X. destruct (IU _ X) as [Y NEY]. now apply (md_users _ _ _ _ _ _ MD _ NEY). }
        { intros k X. now apply IU. }
        assert (st0' = st0) as -> by congruence. eauto. }
      destruct r as [n|n y|n|n y].
      * destruct PL as [_ PT]. now rewrite PT.
      * destruct PL as [_ PT]. now rewrite PT.
      * destruct PL as (st0 & w & E0 & EW & _ & PT). rewrite PT. destruct (ST0 _ E0) as (sP0 & R0).
        eapply UT; eauto. exact (md_read _ _ _ _ _ _ MD).
      * destruct PL as (st0 & w & E0 & EW & _ & PT). rewrite PT. destruct (ST0 _ E0) as (sP0 & R0). unfold upd.
        destruct (i =? y); auto. eapply UT; eauto. exact (md_read _ _ _ _ _ _ MD).
Qed.

(** count says how many pairs are stored; each visits those of them that can be read. *)
Lemma L_C86_count_and_each_all cf tops lops st D sP tP q :
  let S := split_links cf tops lops in let any := c_any cf in
  unit_env cf tops lops -> clife cf tops lops st D sP tP ->
  q = [] \/ q = [any] \/ q = [any; any] \/ q = [any; any; any] ->
  exists L, StronglySorted (fun k l => l_index k < l_index l) L /\ (forall i s t, In (mkLink i s t) L <-> D i = Some (s, t)) /\
    li_count S st q = Val (N.of_nat (length L)) /\
    forall H (h : rhandler H) x, li_each S H h q st x = Val (run_handler h (filter (fun l => readable D tP (l_index l)) L) x).
Proof.
  intros S any ENV HL Q. subst S. pose proof (clife_inv cf tops lops ENV _ _ _ _ HL) as K. pose proof K as (B & top & fr & R).
  pose proof (proj1 ENV) as CF. exists (alinks (mkA top fr D)).
  assert (F : filter (fun l => readable D tP (l_index l)) (alinks (mkA top fr D)) = alinks (shown_part (mkA top fr D) tP)).
  { unfold alinks. change (a_top (shown_part (mkA top fr D) tP)) with top. change (a_map (shown_part (mkA top fr D) tP)) with (seen D tP).
    cbn [a_top a_map]. generalize (range1 top). intros l. induction l as [|j l IH]; [reflexivity|]. cbn [flat_map].
    rewrite filter_app, IH. f_equal. unfold seen. destruct (readable D tP j) eqn:RD.
    - destruct (D j) as [[s t]|]; [cbn [filter l_index]; now rewrite RD|reflexivity].
    - destruct (D j) as [[s t]|]; [cbn [filter l_index]; now rewrite RD|reflexivity]. }
  rewrite F. destruct (c_virt cf _ _ _ _ any K) as (va & VA & _). split; [|split; [|split]].
  - unfold alinks. rewrite <- (Nnat.N2Nat.id (a_top _)). apply sorted_range1_gen.
  - intros i s t. unfold alinks. rewrite in_flat_map. cbn [a_top a_map]. split.
    + intros (j & J & X). destruct (D j) as [[s' t']|] eqn:DJ; [|destruct X]. destruct X as [X|[]]. injection X as <- <- <-. exact DJ.
    + intros E. exists i. split; [|rewrite E; now left]. apply in_range1. assert (X : D i <> None) by congruence.
      apply (sm_dom _ _ _ _ _ R) in X. cbn in X. lia.
  - pose proof (count_ok _ _ _ _ _ R) as T. cbn [li_count split_links]. unfold s_count in *.
    destruct Q as [->|[->|[->| ->]]]; auto; rewrite (ok_ipart _ CF), ?(ok_spart _ CF), ?(ok_tpart _ CF);
      rewrite ?qget_0, ?qget_1, ?qget_2; cbn [obind]; unfold any in *;
      rewrite ?VA; cbn [obind]; rewrite ?N.eqb_refl; cbn [andb]; exact T.
  - intros H h x. pose proof (m_each_all cf tops lops ENV _ _ _ _ H h x R) as T. cbn [li_each split_links]. unfold s_each.
    destruct Q as [->|[->|[->| ->]]]; auto; rewrite (ok_ipart _ CF), ?(ok_spart _ CF), ?(ok_tpart _ CF);
      rewrite ?qget_0, ?qget_1, ?qget_2; cbn [obind]; unfold any, s_each3 in *;
      rewrite ?VA; cbn [obind]; rewrite ?N.eqb_refl; cbn [andb]; exact T.
Qed.

(** A query for one index visits that link if it can be read and matches. *)
Lemma L_C86_by_index cf tops lops st D sP tP i q :
  let S := split_links cf tops lops in
  unit_env cf tops lops -> clife cf tops lops st D sP tP -> i <> c_any cf ->
  q = [i] \/ (exists v, q = [i; v]) \/ (exists s t, q = [i; s; t]) ->
  (forall l, li_get S st i = Val (Some l) -> query_match (c_any cf) q l ->
     (forall H (h : rhandler H) x, li_each S H h q st x = Val (h x l)) /\
     (length q <> 2%nat -> li_count S st q = Val 1)) /\
  ((forall l, li_get S st i = Val (Some l) -> ~ query_match (c_any cf) q l) ->
     (forall H (h : rhandler H) x, li_each S H h q st x = Val (x, Continue)) /\
     (length q <> 2%nat -> li_count S st q = Val 0)).
Proof.
  intros S ENV HL IA Q. subst S. pose proof (clife_inv cf tops lops ENV _ _ _ _ HL) as K. pose proof K as (_ & top & fr & R).
  pose proof (proj1 ENV) as CF.
  pose proof (c_get cf tops lops ENV _ _ _ _ i K) as G. pose proof G as G'. cbn [li_get split_links] in G'. rewrite G.
  set (any := c_any cf) in *.
  pose proof (m_exists cf tops lops ENV _ _ _ _ i R) as EX. cbn [a_map] in EX.
  assert (EI : i =? any = false) by (now apply N.eqb_neq).
  pose proof (fun v => m_virtual cf _ _ _ _ v R) as VT.
  assert (EACH : forall H (h : rhandler H) x, li_each (split_links cf tops lops) H h q st x =
    match seen D tP i with
    | Some (s, t) => if match q with
        | [_; v] => (v =? any) || (s =? v) || (t =? v)
        | [_; s'; t'] => ((s' =? any) || (s =? s')) && ((t' =? any) || (t =? t'))
        | _ => true end then Val (h x (mkLink i s t)) else Val (x, Continue)
    | None => Val (x, Continue) end).
  { intros H h x. cbn [li_each split_links]. unfold s_each.
    destruct Q as [->|[(v & ->)|(s' & t' & ->)]]; rewrite (ok_ipart _ CF), ?(ok_spart _ CF), ?(ok_tpart _ CF), ?qget_0, ?qget_1, ?qget_2;
      cbn [obind]; fold any; unfold s_each3; rewrite ?VT; cbn [obind]; fold any; rewrite ?EI; unfold s_each_one;
      rewrite G'; destruct (seen D tP i) as [[s t]|]; cbn [obind olink l_source l_target]; try reflexivity.
    destruct (N.eqb_spec s' any), (N.eqb_spec t' any); cbn [negb andb orb]; rewrite ?andb_true_r; reflexivity. }
  assert (COUNT : length q <> 2%nat -> li_count (split_links cf tops lops) st q = Val (b2n
    match seen D tP i with
    | Some (s, t) => match q with
        | [_; s'; t'] => ((s' =? any) || (s =? s')) && ((t' =? any) || (t =? t'))
        | _ => true end
    | None => false end)).
  { intros LQ. cbn [li_count split_links]. unfold s_count.
    destruct Q as [->|[(v & ->)|(s' & t' & ->)]]; [|cbn in LQ; congruence|];
      rewrite (ok_ipart _ CF), ?(ok_spart _ CF), ?(ok_tpart _ CF), ?qget_0, ?qget_1, ?qget_2;
      cbn [obind]; fold any; rewrite ?VT; cbn [obind]; fold any; rewrite ?EI, EX; cbn [obind]; unfold seen;
      destruct (readable D tP i) eqn:RD; cbn [obind negb]; try reflexivity;
      (destruct (D i) as [[s t]|] eqn:E; [|exfalso; apply readable_some in RD; contradiction]); [reflexivity|].
    pose proof (m_range cf _ _ _ _ _ R RD) as IR. pose proof (sm_len _ _ _ _ _ R). pose proof (sm_dlen _ _ _ _ _ R).
    unfold s_get_data_unchecked. rewrite (s_view_ok _ _ _ _ _ R). cbn [obind]. rewrite rdu_ok by lia. cbn [obind].
    rewrite (sm_data _ _ _ _ _ R i _ E). cbn [fst snd].
    destruct (N.eqb_spec s' any), (N.eqb_spec t' any); cbn [negb andb orb]; rewrite ?andb_true_r; reflexivity. }
  assert (ME : forall s t, query_match any q (mkLink i s t) <-> match q with
        | [_; v] => (v =? any) || (s =? v) || (t =? v)
        | [_; s'; t'] => ((s' =? any) || (s =? s')) && ((t' =? any) || (t =? t'))
        | _ => true end = true).
  { intros s t. destruct Q as [->|[(v & ->)|(s' & t' & ->)]]; cbn [query_match l_index l_source l_target]; unfold part_match;
      rewrite ?andb_true_iff, ?orb_true_iff, ?N.eqb_eq; intuition. }
  split.
  - intros l GL QM. destruct (seen D tP i) as [[s t]|]; cbn [olink] in GL; [|discriminate]. injection GL as <-.
    apply ME in QM. split.
    + intros H h x. now rewrite EACH, QM.
    + intros LQ. rewrite (COUNT LQ). destruct Q as [->|[(v & ->)|(s' & t' & ->)]]; [reflexivity|cbn in LQ; congruence|now rewrite QM].
  - intros NQ. destruct (seen D tP i) as [[s t]|].
    + specialize (NQ _ eq_refl). rewrite ME in NQ. apply not_true_is_false in NQ. split.
      * intros H h x. now rewrite EACH, NQ.
      * intros LQ. rewrite (COUNT LQ). destruct Q as [->|[(v & ->)|(s' & t' & ->)]]; [discriminate|cbn in LQ; congruence|now rewrite NQ].
    + split; [exact EACH|]. intros LQ. now rewrite (COUNT LQ).
Qed.

(** A query by source or by target visits the stored links that match and are in the tree in
    which the store looks, whether they can be read or not. *)
Lemma L_C86_by_source cf tops lops st D sP tP v :
  let S := split_links cf tops lops in
  unit_env cf tops lops -> clife cf tops lops st D sP tP -> v <> 0 -> v <> c_any cf ->
  exists L, NoDup L /\
    (forall l, In l L <-> D (l_index l) = Some (l_source l, l_target l) /\ l_source l = v /\ sP (l_index l) = home D tP v) /\
    (forall H (h : rhandler H) x, li_each S H h [c_any cf; v; c_any cf] st x = Val (run_handler h L x)) /\
    (linked S st v -> li_count S st [c_any cf; v; c_any cf] = Val (N.of_nat (length L))).
Proof.
  intros S ENV HL V0 VA. subst S. pose proof (clife_inv cf tops lops ENV _ _ _ _ HL) as K. pose proof (proj1 ENV) as CF.
  destruct (c_by_source cf tops lops ENV _ _ _ _ v K V0) as (L & L1 & L2 & L3 & L4).
  destruct (c_virt cf _ _ _ _ v K) as (b & EB & HB). specialize (HB V0). subst b.
  destruct (c_virt cf _ _ _ _ (c_any cf) K) as (va & EA & _).
  exists L. split; auto. split; auto. split.
  - intros H h x. cbn [li_each split_links]. unfold s_each. rewrite (ok_ipart _ CF), (ok_spart _ CF), (ok_tpart _ CF), qget_0, qget_1, qget_2.
    cbn [obind]. unfold s_each3. rewrite EB, EA. cbn [obind]. rewrite N.eqb_refl.
    destruct (N.eqb_spec v (c_any cf)); [contradiction|]. cbn [andb]. apply L3.
  - intros LV. apply (c_linked cf tops lops ENV _ _ _ _ _ K) in LV. rewrite <- (L4 LV).
    cbn [li_count split_links]. unfold s_count. rewrite (ok_ipart _ CF), (ok_spart _ CF), (ok_tpart _ CF), qget_0, qget_1, qget_2.
    cbn [obind]. rewrite EB, EA. cbn [obind]. rewrite N.eqb_refl.
    destruct (N.eqb_spec v (c_any cf)); [contradiction|]. cbn [andb]. now rewrite LV.
Qed.
Lemma L_C86_by_target cf tops lops st D sP tP v :
  let S := split_links cf tops lops in
  unit_env cf tops lops -> clife cf tops lops st D sP tP -> v <> 0 -> v <> c_any cf ->
  exists L, NoDup L /\
    (forall l, In l L <-> D (l_index l) = Some (l_source l, l_target l) /\ l_target l = v /\ tP (l_index l) = home D tP v) /\
    (forall H (h : rhandler H) x, li_each S H h [c_any cf; c_any cf; v] st x = Val (run_handler h L x)) /\
    li_count S st [c_any cf; c_any cf; v] = Val (N.of_nat (length L)).
Proof.
  intros S ENV HL V0 VA. subst S. pose proof (clife_inv cf tops lops ENV _ _ _ _ HL) as K. pose proof (proj1 ENV) as CF.
  destruct (c_by_target cf tops lops ENV _ _ _ _ v K V0) as (L & L1 & L2 & L3 & L4).
  destruct (c_virt cf _ _ _ _ v K) as (b & EB & HB). specialize (HB V0). subst b.
  destruct (c_virt cf _ _ _ _ (c_any cf) K) as (va & EA & _).
  exists L. split; auto. split; auto. split.
  - intros H h x. cbn [li_each split_links]. unfold s_each. rewrite (ok_ipart _ CF), (ok_spart _ CF), (ok_tpart _ CF), qget_0, qget_1, qget_2.
    cbn [obind]. unfold s_each3. rewrite EB, EA. cbn [obind]. rewrite N.eqb_refl.
    destruct (N.eqb_spec v (c_any cf)); [contradiction|]. cbn [andb]. apply L3.
  - rewrite <- L4.
    cbn [li_count split_links]. unfold s_count. rewrite (ok_ipart _ CF), (ok_spart _ CF), (ok_tpart _ CF), qget_0, qget_1, qget_2.
    cbn [obind]. rewrite EB, EA. cbn [obind]. rewrite N.eqb_refl.
    destruct (N.eqb_spec v (c_any cf)); [contradiction|]. cbn [andb]. reflexivity.
Qed.

(** A query for either end visits the former, then the latter. *)
Lemma L_C86_either_end cf tops lops st D sP tP v :
  let S := split_links cf tops lops in
  unit_env cf tops lops -> clife cf tops lops st D sP tP -> v <> 0 -> v <> c_any cf ->
  exists L1 L2, NoDup L1 /\ NoDup L2 /\
    (forall l, In l L1 <-> D (l_index l) = Some (l_source l, l_target l) /\ l_source l = v /\ sP (l_index l) = home D tP v) /\
    (forall l, In l L2 <-> D (l_index l) = Some (l_source l, l_target l) /\ l_target l = v /\ tP (l_index l) = home D tP v) /\
    forall H (h : rhandler H) x, li_each S H h [c_any cf; v] st x = Val (run_handler h (L1 ++ L2) x).
Proof.
  intros S ENV HL V0 VA. pose proof (proj1 ENV) as CF.
  destruct (L_C86_by_source cf tops lops st D sP tP v ENV HL V0 VA) as (L1 & A1 & A2 & A3 & _).
  destruct (L_C86_by_target cf tops lops st D sP tP v ENV HL V0 VA) as (L2 & B1 & B2 & B3 & _).
  exists L1, L2. split; auto. split; auto. split; auto. split; auto.
  assert (R1 : forall s t H (h : rhandler H) x, li_each (split_links cf tops lops) H h [c_any cf; s; t] st x = s_each3 cf st h (c_any cf) s t x).
  { intros s t H h x. cbn [li_each split_links]. unfold s_each. rewrite (ok_ipart _ CF), (ok_spart _ CF), (ok_tpart _ CF), qget_0, qget_1, qget_2. reflexivity. }
  intros H h x. specialize (A3 H h x). specialize (B3 H h). rewrite R1 in A3. subst S. cbn [li_each split_links].
  unfold s_each. rewrite (ok_ipart _ CF), qget_0. cbn [obind]. rewrite N.eqb_refl. destruct (N.eqb_spec v (c_any cf)); [contradiction|].
  rewrite A3. cbn [obind]. rewrite run_handler_app. destruct (run_handler h L1 x) as [x1 []]; [rewrite <- R1; apply B3|reflexivity].
Qed.

(** A search for a pair finds a stored link that has it: if that link can be read it is
    reported, otherwise the behaviour is undefined.  Nothing is found only if every stored link
    with that pair is missing from one of the trees in which the store looks. *)
Lemma L_C86_search cf tops lops st D sP tP s t :
  let S := split_links cf tops lops in
  unit_env cf tops lops -> clife cf tops lops st D sP tP -> s <> 0 -> t <> 0 -> s <> c_any cf -> t <> c_any cf ->
  (exists i, D i = Some (s, t) /\ (sP i = home D tP s \/ tP i = home D tP t) /\
     (forall H (h : rhandler H) x, li_each S H h [c_any cf; s; t] st x =
        match tP i with Out => UB | _ => Val (h x (mkLink i s t)) end) /\
     (linked S st s -> li_count S st [c_any cf; s; t] = Val 1)) \/
  ((forall i, D i = Some (s, t) -> sP i <> home D tP s \/ tP i <> home D tP t) /\
   (forall H (h : rhandler H) x, li_each S H h [c_any cf; s; t] st x = Val (x, Continue)) /\
   (linked S st s -> li_count S st [c_any cf; s; t] = Val 0)).
Proof.
  intros S ENV HL S0 T0 SA TA. subst S. pose proof (clife_inv cf tops lops ENV _ _ _ _ HL) as K. pose proof (proj1 ENV) as CF.
  destruct (c_search cf _ _ _ _ s t K S0 T0) as (r & E & C).
  destruct (c_virt cf _ _ _ _ s K) as (b & EB & HB). specialize (HB S0). subst b.
  destruct (c_virt cf _ _ _ _ t K) as (b & EA & HB). specialize (HB T0). subst b.
  assert (RED : forall H (h : rhandler H) x, li_each (split_links cf tops lops) H h [c_any cf; s; t] st x =
    if r =? 0 then Val (x, Continue) else
      let* o := s_get_link cf st r in match o with Some lk => Val (h x lk) | None => UB end).
  { intros H h x. cbn [li_each split_links]. unfold s_each. rewrite (ok_ipart _ CF), (ok_spart _ CF), (ok_tpart _ CF), qget_0, qget_1, qget_2.
    cbn [obind]. unfold s_each3. rewrite EB, EA. cbn [obind]. rewrite N.eqb_refl.
    destruct (N.eqb_spec s (c_any cf)); [contradiction|]. destruct (N.eqb_spec t (c_any cf)); [contradiction|]. cbn [andb].
    rewrite E. cbn [obind]. now rewrite (ok_null _ CF). }
  assert (REC : linked (split_links cf tops lops) st s -> li_count (split_links cf tops lops) st [c_any cf; s; t] = Val (if r =? 0 then 0 else 1)).
  { intros LS. apply (c_linked cf tops lops ENV _ _ _ _ _ K) in LS.
    cbn [li_count split_links]. unfold s_count. rewrite (ok_ipart _ CF), (ok_spart _ CF), (ok_tpart _ CF), qget_0, qget_1, qget_2.
    cbn [obind]. rewrite EB, EA. cbn [obind]. rewrite N.eqb_refl.
    destruct (N.eqb_spec s (c_any cf)); [contradiction|]. destruct (N.eqb_spec t (c_any cf)); [contradiction|]. cbn [andb].
    rewrite LS in *. cbn [negb] in *. rewrite E. cbn [obind]. now rewrite (ok_null _ CF). }
  destruct C as [[-> C]|(R0 & C1 & C2)].
  - right. split; auto.
  - left. exists r. split; auto. split; auto. destruct (N.eqb_spec r 0); [contradiction|]. split; auto.
    intros H h x. rewrite RED.
    pose proof (c_get cf tops lops ENV _ _ _ _ r K) as G. cbn [li_get split_links] in G. rewrite G. cbn [obind].
    unfold seen, readable. rewrite C1. destruct (N.eqb_spec s 0); [contradiction|]. cbn [orb]. destruct (tP r); reflexivity.
Qed.

(** A creation gives out an index at which nothing is stored and changes no other link.  It
    reports that the limit is reached only if a pair is stored at every index of the range,
    though some may not be readable. *)
Lemma L_C86_create cf tops lops st D sP tP q :
  let S := split_links cf tops lops in
  unit_env cf tops lops -> cfg_room cf -> clife cf tops lops st D sP tP ->
  ((forall i, 1 <= i <= c_iend cf -> D i <> None) /\
     fails_with (fun H h x => li_create S H h q st x) st (LimitReached (c_iend cf))) \/
  (~ (forall i, 1 <= i <= c_iend cf -> D i <> None) /\
   exists st', same_links S st st' /\ clife cf tops lops st' D sP tP /\
     fails_with (fun H h x => li_create S H h q st x) st' AllocFailed) \/
  (exists st' i, D i = None /\ creates cf S st st' i /\ clife cf tops lops st' (upd D i (Some (0, 0))) sP tP /\
     calls_once (fun H h x => li_create S H h q st x) st' nothing (mkLink i 0 0)).
Proof.
  intros S ENV RM HL. subst S. pose proof (clife_inv cf tops lops ENV _ _ _ _ HL) as K. pose proof K as (B & top & fr & R).
  destruct (m_create cf tops lops ENV _ _ _ _ q R B) as [(F1 & F2 & F)|[(F1 & F2 & st2 & R2 & B2 & SC & F)|[(F1 & F2 & F3 & _)|(st2 & R2 & B2 & F)]]].
  - left. cbn [a_free a_top] in F1, F2. split; [|exact F]. intros i I. apply (sm_dom _ _ _ _ _ R). cbn [a_free a_top]. split; [lia|]. rewrite F1. auto.
  - right; left. cbn [a_free a_top] in F1, F2. split.
    { intros X. specialize (X (c_iend cf)). assert (Y : D (c_iend cf) <> None) by (apply X; lia).
      apply (sm_dom _ _ _ _ _ R) in Y. cbn [a_top] in Y. lia. }
    exists st2. pose proof (conj B2 (ex_intro _ top (ex_intro _ fr R2)) : cinv cf st2 D sP tP) as K2. split; [|split; [|exact F]].
    + intros j. rewrite (c_get cf tops lops ENV _ _ _ _ j K), (c_get cf tops lops ENV _ _ _ _ j K2). reflexivity.
    + eapply cl_step; [exact HL|]. eapply cs_create; [exact (F unit (fun u _ _ => (u, Continue)) tt)|]. split; auto.
      intros j s t DJ. rewrite (c_link cf tops lops ENV _ _ _ _ _ _ _ K2), seen_some, DJ. intuition discriminate.
  - exfalso. pose proof (room_step _ RM). cbn [a_top] in *. lia.
  - right; right. set (a := mkA top fr D) in *. destruct (m_next cf _ _ _ _ R) as [NN N0].
    assert (K2 : cinv cf st2 (upd D (a_next a) (Some (0, 0))) sP tP).
    { eapply cinv_of; [exact B2|exact R2|]. intros j. now rewrite a_create_map. }
    exists st2, (a_next a). split; [exact NN|]. split; [|split; [|exact F]].
    + assert (X : a_map (a_create a) (a_next a) <> None) by (rewrite a_create_map, upd_same; discriminate).
      apply (sm_dom _ _ _ _ _ R2) in X. pose proof (sm_iend _ _ _ _ _ R2). split; [lia|]. split; [|split; [|split]].
      * apply (c_none cf tops lops ENV _ _ _ _ _ K). apply seen_none. unfold readable. change D with (a_map a). now rewrite NN.
      * apply (c_link cf tops lops ENV _ _ _ _ _ _ _ K2). apply seen_some. rewrite upd_same. auto.
      * intros j J. rewrite (c_get cf tops lops ENV _ _ _ _ j K), (c_get cf tops lops ENV _ _ _ _ j K2). f_equal. f_equal.
        unfold seen. rewrite (readable_ext (upd D (a_next a) (Some (0, 0))) D tP tP j); auto; [|now rewrite upd_other].
        now rewrite upd_other.
      * exists (N.of_nat (length (alinks a))). cbn [li_count split_links]. split; [exact (count_ok _ _ _ _ _ R)|].
        rewrite (count_ok _ _ _ _ _ R2). f_equal.
        pose proof (Scars.alinks_count_set _ (m_aset cf _ _ _ _ R)) as C1. pose proof (Scars.alinks_count_set _ (m_aset cf _ _ _ _ R2)) as C2.
        revert C1 C2. unfold a_create. destruct (a_free a) as [|y fl]; cbn [a_top a_free length]; lia.
    + eapply cl_step; [exact HL|]. eapply cs_create; [exact (F unit (fun u _ _ => (u, Continue)) tt)|]. split.
      * intros j J. apply upd_other. intros ->. apply J. exact NN.
      * intros j s t DJ. rewrite (c_link cf tops lops ENV _ _ _ _ _ _ _ K2), seen_some. split; [|tauto]. intros X. split; auto.
        unfold upd in X. destruct (j =? a_next a); [injection X as <- <-; auto|congruence].
Qed.

(** An update of a link that is where the store looks for it changes that link and no other.
    The link can be read afterwards unless it is given a source and no target. *)
Lemma L_C86_update_partial cf tops lops st D sP tP i os ot s t :
  let S := split_links cf tops lops in
  unit_env cf tops lops -> clife cf tops lops st D sP tP -> may_update D sP tP i os ot ->
  exists st', (s = 0 \/ t <> 0 -> is_link S st' i s t) /\ (s <> 0 -> t = 0 -> no_link S st' i) /\ frame S st st' i /\
    clife cf tops lops st' (upd D i (Some (s, t))) (upd sP i (home D (upd tP i Out) s)) (upd tP i (home D (upd tP i Out) t)) /\
    calls_once (fun H h x => li_update S H h [i] [i; s; t] st x) st' (mkLink i os ot) (mkLink i s t).
Proof.
  intros S ENV HL MU. subst S. pose proof (clife_inv cf tops lops ENV _ _ _ _ HL) as K. pose proof K as (B & top & fr & R).
  pose proof MU as [MP MR MS MT ML].
  destruct (m_update cf tops lops ENV st _ _ _ i os ot s t R MP MR ML MS MT) as (st2 & R2 & M2 & F). exists st2.
  assert (HL2 : clife cf tops lops st2 (upd D i (Some (s, t))) (upd sP i (home D (upd tP i Out) s)) (upd tP i (home D (upd tP i Out) t))).
  { eapply cl_step; [exact HL|]. eapply cs_update; [exact MU|exact (F unit (fun u _ _ => (u, Continue)) tt)|auto|auto|auto]. }
  pose proof (clife_inv cf tops lops ENV _ _ _ _ HL2) as K2. split; [|split; [|split; [|split; [exact HL2|exact F]]]].
  - intros X. apply (c_link cf tops lops ENV _ _ _ _ _ _ _ K2). apply seen_some. rewrite !upd_same. split; auto.
    rewrite home_out. exact X.
  - intros X Y. apply (c_none cf tops lops ENV _ _ _ _ _ K2). apply seen_none. unfold readable. rewrite !upd_same. apply N.eqb_neq in X. rewrite X.
    subst t. reflexivity.
  - intros j J. rewrite (c_get cf tops lops ENV _ _ _ _ j K), (c_get cf tops lops ENV _ _ _ _ j K2). f_equal. f_equal. unfold seen.
    rewrite (readable_ext (upd D i (Some (s, t))) D (upd tP i (home D (upd tP i Out) t)) tP j) by (now apply upd_other). now rewrite upd_other.
Qed.

(** A deletion of a link that is where the store looks for it removes that link and changes no
    other, if the links that refer to it can be moved and, when it is the last stored link, the
    highest one left can be read. *)
Lemma L_C86_delete_partial cf tops lops st D sP tP i os ot :
  let S := split_links cf tops lops in
  unit_env cf tops lops -> clife cf tops lops st D sP tP -> may_delete D sP tP i os ot ->
  exists st' n, no_link S st' i /\ frame S st st' i /\
    li_count S st [] = Val (n + 1) /\ li_count S st' [] = Val n /\
    clife cf tops lops st' (upd D i None) (upd (SplitWrites.moved i sP) i Out) (upd (SplitWrites.moved i tP) i Out) /\
    calls_once (fun H h x => li_delete S H h [i] st x) st' (mkLink i os ot) nothing.
Proof.
  intros S ENV HL MD. subst S. pose proof (clife_inv cf tops lops ENV _ _ _ _ HL) as K. pose proof K as (B & top & fr & R).
  destruct (m_delete cf tops lops ENV st _ _ _ i os ot R MD) as (st2 & R2 & M2 & F). exists st2.
  assert (HL2 : clife cf tops lops st2 (upd D i None) (upd (SplitWrites.moved i sP) i Out) (upd (SplitWrites.moved i tP) i Out)).
  { eapply cl_step; [exact HL|]. eapply cs_delete; [exact MD|exact (F unit (fun u _ _ => (u, Continue)) tt)|auto|auto|auto]. }
  pose proof (clife_inv cf tops lops ENV _ _ _ _ HL2) as K2. set (a := mkA top fr D) in *.
  exists (N.of_nat (length (alinks (a_delete a i)))).
  split; [|split; [|split; [|split; [|split; [exact HL2|exact F]]]]].
  - apply (c_none cf tops lops ENV _ _ _ _ _ K2). apply seen_none. unfold readable. now rewrite !upd_same.
  - intros j J. rewrite (c_get cf tops lops ENV _ _ _ _ j K), (c_get cf tops lops ENV _ _ _ _ j K2). f_equal. f_equal. unfold seen.
    rewrite (readable_ext (upd D i None) D (upd (SplitWrites.moved i tP) i Out) (SplitWrites.moved i tP) j) by (now apply upd_other).
    rewrite moved_readable. now rewrite upd_other.
  - cbn [li_count split_links]. rewrite (count_ok _ _ _ _ _ R). f_equal.
    assert (P : Permutation (alinks a) (mkLink i os ot :: alinks (a_delete a i))).
    { apply NoDup_Permutation; [apply nodup_alinks|constructor; [|apply nodup_alinks]|].
      - rewrite (in_set_links _ _ _ _ (m_aset cf _ _ _ _ R2)), a_delete_map, upd_same. discriminate.
      - intros [j s t]. cbn [In]. rewrite (in_set_links _ _ _ _ (m_aset cf _ _ _ _ R)), (in_set_links _ _ _ _ (m_aset cf _ _ _ _ R2)), a_delete_map.
        pose proof (md_pair _ _ _ _ _ _ MD) as MP. change D with (a_map a) in MP. unfold upd. destruct (N.eqb_spec j i) as [->|NE].
        + rewrite MP. split; [intros [= <- <-]; now left|]. intros [X|X]; [now injection X as <- <-|discriminate].
        + split; [auto|]. intros [X|X]; [injection X as X1 _ _; congruence|exact X]. }
    rewrite (Permutation_length P). cbn [length]. lia.
  - exact (count_ok _ _ _ _ _ R2).
Qed.

(** What cannot be read cannot be changed or deleted. *)
Lemma L_C86_missing cf tops lops st D sP tP i :
  let S := split_links cf tops lops in
  unit_env cf tops lops -> clife cf tops lops st D sP tP -> no_link S st i ->
  (forall s t, fails_with (fun H h x => li_update S H h [i] [i; s; t] st x) st (NotExists i)) /\
  fails_with (fun H h x => li_delete S H h [i] st x) st (NotExists i).
Proof.
  intros S ENV HL NL. subst S. pose proof (clife_inv cf tops lops ENV _ _ _ _ HL) as K. pose proof K as (_ & top & fr & R).
  apply (c_none cf tops lops ENV _ _ _ _ _ K) in NL. apply seen_none in NL. exact (m_none cf tops lops ENV _ _ _ _ _ R NL).
Qed.

(** Whatever a life left in the memories, they can be opened again if there is room, and what is
    stored and where is as before. *)
Lemma L_C86_reopens cf tops lops st D sP tP orc :
  let c := s_capacity cf (sh_alloc st) in
  unit_env cf tops lops -> clife cf tops lops st D sP tP -> sh_alloc st < c -> c - 1 <= c_tmax cf ->
  both_or_none orc -> orc 0%nat (c_page cf) (c_page cf) = Grown -> orc 1%nat c c = Grown ->
  exists st', s_open cf (s_persist st orc) = Val (Ok st') /\ clife cf tops lops st' D sP tP /\
    same_links (split_links cf tops lops) st st'.
Proof.
  intros c ENV HL LT TM B O1 O2. pose proof (clife_inv cf tops lops ENV _ _ _ _ HL) as K. pose proof K as (_ & top & fr & R).
  subst c. pose proof (sm_alloc _ _ _ _ _ R) as HA. cbn [a_top] in HA.
  destruct (s_open_smem cf (proj1 ENV) (s_persist st orc) st _ _ _ (same_cells_same st) R) as (st2 & E & _); cbn [a_top]; try rewrite <- HA; auto.
  assert (HL2 : clife cf tops lops st2 D sP tP).
  { eapply cl_step; [exact HL|]. apply cs_reopen. split; auto. exists orc. auto. }
  exists st2. split; auto. split; auto. pose proof (clife_inv cf tops lops ENV _ _ _ _ HL2) as K2.
  intros j. rewrite (c_get cf tops lops ENV _ _ _ _ j K), (c_get cf tops lops ENV _ _ _ _ j K2). reflexivity.
Qed.

(** Interrupting an update that may be made, at any point: the store opened again is a life as
    well.  No other link reads differently.  The link itself has its old pair up to the two
    detaches; then its fields are written one after the other, and until it is in a tree of
    targets again it cannot be read if it has a source. *)
Lemma L_C86_interrupted_update cf tops lops st D sP tP i os ot s t k :
  let S := split_links cf tops lops in
  unit_env cf tops lops -> clife cf tops lops st D sP tP -> may_update D sP tP i os ot ->
  exists st1, s_stop tops st i os ot s t k = Val st1 /\
    forall st', reopened cf st1 st' ->
      clife cf tops lops st' (upd D i (Some (s_fields k os ot s t))) (stop_s D sP tP i s k) (stop_t D tP i t k) /\
      frame S st st' i /\
      match k with
      | 0%nat | 1%nat => is_link S st' i os ot
      | 2%nat => (os = 0 -> is_link S st' i 0 ot) /\ (os <> 0 -> no_link S st' i)
      | 3%nat => (s = 0 -> is_link S st' i 0 ot) /\ (s <> 0 -> no_link S st' i)
      | 4%nat | 5%nat => (s = 0 -> is_link S st' i 0 t) /\ (s <> 0 -> no_link S st' i)
      | _ => (s = 0 \/ t <> 0 -> is_link S st' i s t) /\ (s <> 0 -> t = 0 -> no_link S st' i)
      end.
Proof.
  intros S ENV HL MU. subst S. pose proof (clife_inv cf tops lops ENV _ _ _ _ HL) as K. pose proof K as (B & top & fr & R).
  pose proof MU as [MP MR MS MT ML].
  destruct (m_stop cf tops lops ENV st _ _ _ i os ot s t k R MP ML MS MT) as (st1 & E1 & R1 & _). exists st1. split; auto.
  intros st' RE.
  assert (HL2 : clife cf tops lops st' (upd D i (Some (s_fields k os ot s t))) (stop_s D sP tP i s k) (stop_t D tP i t k)).
  { eapply cl_step; [exact HL|]. eapply cs_stop_update; eauto. }
  pose proof (clife_inv cf tops lops ENV _ _ _ _ HL2) as K2. split; auto. split.
  - intros j J. rewrite (c_get cf tops lops ENV _ _ _ _ j K), (c_get cf tops lops ENV _ _ _ _ j K2). f_equal. f_equal. unfold seen.
    rewrite (readable_ext (upd D i (Some (s_fields k os ot s t))) D (stop_t D tP i t k) tP j); [|now apply upd_other|].
    + now rewrite upd_other.
    + unfold stop_t. do 6 (destruct k as [|k]; [auto; now rewrite upd_other|]). now rewrite upd_other.
  - assert (RD : forall x y, (s_fields k os ot s t = (x, y) /\ (x = 0 \/ stop_t D tP i t k i <> Out)) -> is_link (split_links cf tops lops) st' i x y).
    { intros x y [X Y]. apply (c_link cf tops lops ENV _ _ _ _ _ _ _ K2). apply seen_some. now rewrite upd_same, X. }
    assert (NR : forall x y, s_fields k os ot s t = (x, y) -> x <> 0 -> stop_t D tP i t k i = Out -> no_link (split_links cf tops lops) st' i).
    { intros x y X X0 Y. apply (c_none cf tops lops ENV _ _ _ _ _ K2). apply seen_none. unfold readable. rewrite upd_same, X, Y.
      apply N.eqb_neq in X0. now rewrite X0. }
    assert (OR : os = 0 \/ tP i <> Out).
    { unfold readable in MR. rewrite MP in MR. apply orb_true_iff in MR as [MR|MR]; [left; now apply N.eqb_eq|right].
      intros X. rewrite X in MR. discriminate. }
    do 6 (destruct k as [|k]; [cbn [s_fields stop_t] in RD, NR; rewrite ?upd_same in RD, NR; first
      [apply RD; split; [reflexivity|exact OR]
      |split; [intros ->; apply RD; auto|intros X; eapply NR; eauto]]|]).
    cbn [s_fields stop_t] in RD, NR. rewrite !upd_same in RD, NR. split.
    + intros X. apply RD. split; auto. rewrite home_out. exact X.
    + intros X ->. eapply NR; eauto.
Qed.

(** Interrupting a creation: the store opened again shows the same links, or one more, at an
    index at which nothing was stored. *)
Lemma L_C86_interrupted_create cf tops lops st D sP tP st1 st' :
  let S := split_links cf tops lops in
  unit_env cf tops lops -> clife cf tops lops st D sP tP -> s_create_point cf tops lops st st1 -> reopened cf st1 st' ->
  (clife cf tops lops st' D sP tP /\ same_links S st st') \/
  (exists i, D i = None /\ clife cf tops lops st' (upd D i (Some (0, 0))) sP tP /\ is_link S st' i 0 0 /\ frame S st st' i).
Proof.
  intros S ENV HL CP RE. subst S. pose proof (clife_inv cf tops lops ENV _ _ _ _ HL) as K. pose proof K as (B & top & fr & R).
  assert (SAME : s_same_cells st1 st -> clife cf tops lops st' D sP tP /\ same_links (split_links cf tops lops) st st').
  { intros SC. pose proof RE as (LT & orc & BO & E).
    assert (HA : sh_alloc st1 = top) by (rewrite <- (sm_alloc _ _ _ _ _ R : sh_alloc st = top); apply SC).
    rewrite HA in LT. pose proof (reopen_smem cf tops lops ENV _ _ _ _ _ _ _ SC R LT E) as R2.
    assert (GET : forall j, li_get (split_links cf tops lops) st' j = Val (olink j (seen D tP j))) by (intros j; exact (m_get cf tops lops ENV _ _ _ _ j R2)).
    split.
    - eapply cl_step; [exact HL|]. eapply cs_stop_create; [exact CP|exact RE|]. split; auto.
      intros j s t DJ. unfold is_link. rewrite GET. unfold seen, readable. rewrite DJ. split; discriminate.
    - intros j. now rewrite (c_get cf tops lops ENV _ _ _ _ j K). }
  assert (CP' := CP). destruct CP' as [|st1 b EA|st1 r EG|H h q x st1 x1 r EC].
  - left. apply SAME, same_cells_same.
  - left. apply SAME. eapply alloc_cells; eauto.
  - left. apply SAME. eapply s_grow_cells; eauto.
  - destruct (m_create cf tops lops ENV _ _ _ _ q R B) as [(_ & _ & F)|[(_ & _ & st2 & R2 & B2 & SC & F)|[(_ & _ & _ & F)|(st2 & R2 & B2 & F)]]].
    + rewrite F in EC. injection EC as <- _ _. left. apply SAME, same_cells_same.
    + rewrite F in EC. injection EC as <- _ _. left. apply SAME, SC.
    + rewrite F in EC. discriminate.
    + rewrite F in EC. destruct (h x nothing _). injection EC as <- _ _. right. set (a := mkA top fr D) in *.
      destruct (m_next cf _ _ _ _ R) as [NN N0]. exists (a_next a). split; [exact NN|].
      assert (K2 : cinv cf st' (upd D (a_next a) (Some (0, 0))) sP tP).
      { eapply (c_reopen cf tops lops ENV st2); [exact R2|exact RE| |auto|auto]. intros j. now rewrite a_create_map. }
      split; [|split].
      * eapply cl_step; [exact HL|]. eapply cs_stop_create; [exact CP|exact RE|]. split.
        -- intros j J. apply upd_other. intros ->. apply J. exact NN.
        -- intros j s t DJ. rewrite (c_link cf tops lops ENV _ _ _ _ _ _ _ K2), seen_some. split; [|tauto]. intros X. split; auto.
           unfold upd in X. destruct (j =? a_next a); [injection X as <- <-; auto|congruence].
      * apply (c_link cf tops lops ENV _ _ _ _ _ _ _ K2). apply seen_some. rewrite upd_same. auto.
      * intros j J. rewrite (c_get cf tops lops ENV _ _ _ _ j K), (c_get cf tops lops ENV _ _ _ _ j K2). f_equal. f_equal.
        unfold seen. rewrite (readable_ext (upd D (a_next a) (Some (0, 0))) D tP tP j); auto; [|now rewrite upd_other].
        now rewrite upd_other.
Qed.

(** Interrupting a deletion that may be made, at any point. *)
Lemma places_exist cf tops st i p st1 sP tP : resolve_at cf tops st i p st1 -> exists sP' tP', places_at cf tops st i p sP tP sP' tP'.
Proof.
  intros (u & EU & P). destruct p as [n|n y|n|n y].
  - exists (exted (map l_index (firstn n u)) sP), tP. exists u. auto.
  - exists (upd (exted (map l_index (firstn n u)) sP) y Out), tP. exists u. auto.
  - destruct P as (st0 & w & E0 & EW & _).
    exists (SplitWrites.moved i sP), (exted (map l_index (firstn n w)) tP). exists u. split; auto. exists st0, w. auto.
  - destruct P as (st0 & w & E0 & EW & _).
    exists (SplitWrites.moved i sP), (upd (exted (map l_index (firstn n w)) tP) y Out). exists u. split; auto. exists st0, w. auto.
Qed.
Lemma del_places_exist cf tops lops st D i os ot p st1 sP tP : s_delete_at cf tops lops st i os ot p st1 ->
  exists sP' tP', del_places cf tops st D i os ot p sP tP sP' tP'.
Proof.
  intros AT. destruct p as [r|k| |n|n]; cbn [del_places s_delete_at] in *; try (eexists _, _; split; intros x; reflexivity).
  eapply places_exist; eauto.
Qed.

Lemma L_C86_interrupted_delete cf tops lops st D sP tP i os ot p st1 st' :
  let S := split_links cf tops lops in
  unit_env cf tops lops -> clife cf tops lops st D sP tP -> may_delete D sP tP i os ot ->
  s_delete_at cf tops lops st i os ot p st1 -> reopened cf st1 st' ->
  (exists D' sP' tP', clife cf tops lops st' D' sP' tP' /\ D' i = del_pair os ot p /\
     (forall j, j <> i -> D j <> None -> D' j = D j) /\
     (forall j, D j = None -> D' j = None \/ (D' j = Some (0, 0) /\ exists n, p = SDetaching n))) /\
  match p with
  | Resolving (MidTarget _ x) => x <> i /\ frame S st st' x /\ exists s, D x = Some (s, i) /\ (s = 0 -> is_link S st' x 0 i) /\ (s <> 0 -> no_link S st' x)
  | Resolving _ | Emptying 0 | Emptying 1 => same_links S st st'
  | Emptying 2 => frame S st st' i /\ (os = 0 -> is_link S st' i 0 ot) /\ (os <> 0 -> no_link S st' i)
  | Emptying 3 => frame S st st' i /\ is_link S st' i 0 ot
  | Emptying _ => frame S st st' i /\ is_link S st' i 0 0
  | SListed | STrimming _ => frame S st st' i /\ no_link S st' i
  | SDetaching _ => no_link S st' i /\
      forall j, j <> i -> li_get S st' j = li_get S st j \/ (D j = None /\ is_link S st' j 0 0)
  end.
Proof.
  intros S ENV HL MD AT RE. subst S. pose proof (clife_inv cf tops lops ENV _ _ _ _ HL) as K. pose proof K as (B & top & fr & R).
  destruct (del_places_exist cf tops lops st D i os ot p st1 sP tP AT) as (sP' & tP' & PL).
  destruct (m_delete_at cf tops lops ENV st _ _ _ sP' tP' i os ot p st1 R MD AT PL) as (a' & R1 & LE & MI & MJ & MN). cbn [a_map] in MJ, MN.
  pose proof (c_reopen cf tops lops ENV st1 a' (a_map a') _ _ sP' tP' st' R1 RE ltac:(auto) ltac:(auto) ltac:(auto)) as K2.
  pose proof (c_get cf tops lops ENV _ _ _ _ i K) as GI. pose proof (md_read _ _ _ _ _ _ MD) as MR. pose proof (md_pair _ _ _ _ _ _ MD) as MP.
  split.
  { exists (a_map a'), sP', tP'. split; [|auto]. eapply cl_step; [exact HL|]. eapply cs_stop_delete; eauto. split; [auto|].
    intros j s t NE J. rewrite (c_link cf tops lops ENV _ _ _ _ _ _ _ K2), seen_some. split; [|tauto]. intros X. split; auto.
    destruct (MN j J) as [Y|[Y _]]; [congruence|]. rewrite Y in X. injection X as <- <-. auto. }
  assert (OR : os = 0 \/ tP i <> Out).
  { unfold readable in MR. rewrite MP in MR. apply orb_true_iff in MR as [X|X]; [left; now apply N.eqb_eq|right].
    intros Y. rewrite Y in X. discriminate. }
  assert (SAME : forall j, j <> i \/ a_map a' j = D j -> (forall n, p <> SDetaching n) -> in_tree (tP' j) = in_tree (tP j) ->
            li_get (split_links cf tops lops) st' j = li_get (split_links cf tops lops) st j).
  { intros j NE NP TE. rewrite (c_get cf tops lops ENV _ _ _ _ j K), (c_get cf tops lops ENV _ _ _ _ j K2). f_equal. f_equal.
    assert (X : a_map a' j = D j).
    { destruct NE as [NE|]; auto. destruct (D j) eqn:DJ; [rewrite <- DJ; apply MJ; auto; congruence|].
      destruct (MN j DJ) as [Y|[_ (n & Y)]]; auto. now apply NP in Y. }
    unfold seen, readable. rewrite X, TE. reflexivity. }
  assert (MV : forall j, in_tree (SplitWrites.moved i tP j) = in_tree (tP j)).
  { intros j. unfold SplitWrites.moved. destruct (j =? i); auto. destruct (tP j) as [| |v]; auto. now destruct (v =? i). }
  assert (LI : forall j x y, a_map a' j = Some (x, y) -> x = 0 \/ tP' j <> Out -> is_link (split_links cf tops lops) st' j x y).
  { intros j x y X Y. apply (c_link cf tops lops ENV _ _ _ _ _ _ _ K2). now apply seen_some. }
  assert (NL : forall j x y, a_map a' j = Some (x, y) -> x <> 0 -> tP' j = Out -> no_link (split_links cf tops lops) st' j).
  { intros j x y X X0 Y. apply (c_none cf tops lops ENV _ _ _ _ _ K2). apply seen_none. unfold readable. rewrite X, Y.
    apply N.eqb_neq in X0. now rewrite X0. }
  assert (NI : a_map a' i = None -> no_link (split_links cf tops lops) st' i).
  { intros X. apply (c_none cf tops lops ENV _ _ _ _ _ K2). apply seen_none. unfold readable. now rewrite X. }
  destruct p as [r|k| |n|n].
  - cbn [del_places del_pair s_delete_at] in *. destruct AT as (u & EU & AT). destruct PL as (u' & EU' & PL). assert (u' = u) as -> by congruence.
    assert (AL : forall j, j <> i \/ a_map a' j = D j).
    { intros j. destruct (N.eq_dec j i) as [->|]; auto. right. congruence. }
    assert (ND : forall n, Resolving r <> SDetaching n) by discriminate.
    destruct (m_users_s cf tops lops ENV _ _ _ _ i R MR) as (u' & EU2 & NDU & IU & _).
    assert (u' = u) as -> by congruence. clear EU2 EU'.
    assert (ST0 : forall st0 w, s_for u (move_s tops i) st = Val st0 -> users_t cf st0 i = Val w ->
              forall k, In k w -> tP (l_index k) = Int i /\ l_index k <> i).
    { intros st0 w E0 EW. destruct (m_move_s cf tops lops ENV _ i tP u st sP R) as (st0' & E0' & R0 & _); auto.
      { intros k X. destruct (IU _ X) as [Y NEY]. now apply (md_users _ _ _ _ _ _ MD _ NEY). }
      { intros k X. now apply IU. }
      assert (st0' = st0) as -> by congruence.
      destruct (m_users_t cf tops lops ENV _ _ _ _ i R0 MR) as (w' & EW' & _ & IW & _). assert (w' = w) as -> by congruence. exact IW. }
    assert (XT : forall w n, (forall k, In k w -> tP (l_index k) = Int i /\ l_index k <> i) ->
              forall j, in_tree (exted (map l_index (firstn n w)) tP j) = in_tree (tP j)).
    { intros w n IW j. unfold exted. destruct (in_dec _ _ _) as [X|X]; auto. apply in_map_iff in X as (l & <- & X). apply in_firstn in X. destruct (IW _ X) as [-> _]. reflexivity. }
    destruct r as [n|n y|n|n y].
    + destruct PL as [_ PT]. intros j. apply SAME; auto. now rewrite PT.
    + destruct PL as [_ PT]. intros j. apply SAME; auto. now rewrite PT.
    + destruct PL as (st0 & w & E0 & EW & _ & PT). intros j. apply SAME; auto. rewrite PT. apply XT. eapply ST0; eauto.
    + destruct PL as (st0 & w & E0 & EW & _ & PT). destruct AT as (st0' & w' & E0' & EW' & st2 & k & E2 & NK & -> & _).
      assert (st0' = st0) as -> by congruence. assert (w' = w) as -> by congruence.
      pose proof (ST0 _ _ E0 EW) as IW. destruct (IW k (nth_error_In _ _ NK)) as [TK NK2].
      pose proof (sm_tp _ _ _ _ _ R (l_index k)) as TP. rewrite TK in TP. destruct TP as ((s & DK) & _). cbn [a_map] in DK.
      split; auto. split.
      { intros j J. apply SAME; auto. rewrite PT, upd_other by auto. now apply XT. }
      assert (TO : tP' (l_index k) = Out) by (rewrite PT; apply upd_same).
      assert (DK' : a_map a' (l_index k) = Some (s, i)) by (rewrite MJ; auto; congruence).
      exists s. split; auto. split; [intros ->; apply LI; auto|]. intros X. eapply NL; eauto.
  - cbn [del_places del_pair s_delete_at] in *. destruct PL as [_ PT].
    assert (FR : frame (split_links cf tops lops) st st' i).
    { intros j J. apply SAME; auto; [discriminate|]. rewrite PT. unfold stop_t.
      do 6 (destruct k as [|k]; [auto; now rewrite ?upd_other|]). now rewrite upd_other. }
    destruct k as [|[|[|[|k]]]]; cbn [s_fields stop_t] in *.
    1-2: intros j; apply SAME; [|discriminate|now rewrite PT]; right; destruct (N.eq_dec j i) as [->|NE]; [congruence|];
      destruct (D j) eqn:DJ; [rewrite <- DJ; apply MJ; auto; congruence|]; destruct (MN j DJ) as [Y|[_ (n & Y)]]; [auto|discriminate].
    + assert (TI : tP' i = Out) by (rewrite PT; apply upd_same). split; auto. split; [intros ->; apply LI; auto|]. intros X. eapply NL; eauto.
    + split; auto.
    + split; auto.
  - cbn [del_places del_pair] in *. destruct PL as [_ PT]. split; auto. intros j J. apply SAME; auto; [discriminate|]. rewrite PT, upd_other by auto. apply MV.
  - cbn [del_places del_pair] in *. destruct PL as [_ PT]. split; auto. intros j J. apply SAME; auto; [discriminate|]. rewrite PT, upd_other by auto. apply MV.
  - cbn [del_places del_pair] in *. destruct PL as [_ PT]. split; auto. intros j J.
    assert (X : a_map a' j = D j \/ (D j = None /\ a_map a' j = Some (0, 0))).
    { destruct (D j) eqn:DJ; [left; rewrite <- DJ; apply MJ; auto; congruence|]. destruct (MN j DJ) as [Y|[Y _]]; auto. }
    destruct X as [X|[X1 X2]]; [left|right; split; auto].
    rewrite (c_get cf tops lops ENV _ _ _ _ j K), (c_get cf tops lops ENV _ _ _ _ j K2). f_equal. f_equal.
    unfold seen, readable. rewrite X, PT, upd_other, MV by auto. reflexivity.
Qed.

(** ** Outside the contracts *)
(** Deciding where a link is. *)
Lemma place_eq (p q : place) : {p = q} + {p <> q}.
Proof. decide equality. apply N.eq_dec. Qed.

Section Stray.
  Variables (cf : cfg) (tops : tree_ops) (lops : list_ops).
  Notation tops' := (SplitLife.member_tree tops).
  Hypothesis ENV : unit_env cf tops' lops.

  Lemma n_detach_s st a sP tP v x : smem cf st a sP tP -> v <> 0 -> sP x <> home (a_map a) tP v ->
    (if virt a tP v then s_detach_es tops' st x else s_detach_is tops' st v x) = Panic.
  Proof.
    intros R V0 X. rewrite virt_read by auto. destruct (readable (a_map a) tP v) eqn:RD; cbn [negb].
    - assert (HV : home (a_map a) tP v = Int v) by (now apply home_int). pose proof (m_range cf _ _ _ _ _ R RD). pose proof (sm_len _ _ _ _ _ R).
      unfold s_detach_is. rewrite rd_ok by lia. cbn [obind]. rewrite (s_view_ok _ _ _ _ _ R). cbn [obind].
      rewrite (SplitLife.member_tree_refuses _ _ _ _ _ x (fo_int _ _ _ _ _ _ (sm_src _ _ _ _ _ R) v V0)); [reflexivity|]. congruence.
    - assert (HV : home (a_map a) tP v = Ext) by (now apply home_extern).
      unfold s_detach_es. rewrite (s_header_ok _ _ _ _ _ R). cbn [obind]. rewrite (s_view_ok _ _ _ _ _ R). cbn [obind].
      rewrite (SplitLife.member_tree_refuses _ _ _ _ _ x (fo_ext _ _ _ _ _ _ (sm_src _ _ _ _ _ R))); [reflexivity|]. congruence.
  Qed.
  Lemma n_detach_t st a sP tP v x : smem cf st a sP tP -> v <> 0 -> tP x <> home (a_map a) tP v ->
    (if virt a tP v then s_detach_et tops' st x else s_detach_it tops' st v x) = Panic.
  Proof.
    intros R V0 X. rewrite virt_read by auto. destruct (readable (a_map a) tP v) eqn:RD; cbn [negb].
    - assert (HV : home (a_map a) tP v = Int v) by (now apply home_int). pose proof (m_range cf _ _ _ _ _ R RD). pose proof (sm_len _ _ _ _ _ R).
      unfold s_detach_it. rewrite rd_ok by lia. cbn [obind]. rewrite (s_view_ok _ _ _ _ _ R). cbn [obind].
      rewrite (SplitLife.member_tree_refuses _ _ _ _ _ x (fo_int _ _ _ _ _ _ (sm_tgt _ _ _ _ _ R) v V0)); [reflexivity|]. congruence.
    - assert (HV : home (a_map a) tP v = Ext) by (now apply home_extern).
      unfold s_detach_et. rewrite (s_header_ok _ _ _ _ _ R). cbn [obind]. rewrite (s_view_ok _ _ _ _ _ R). cbn [obind].
      rewrite (SplitLife.member_tree_refuses _ _ _ _ _ x (fo_ext _ _ _ _ _ _ (sm_tgt _ _ _ _ _ R))); [reflexivity|]. congruence.
  Qed.
  Lemma n_out_s st a sP tP i ot : smem cf st a sP tP -> a_map a i = Some (0, ot) -> sP i = Out.
  Proof.
    intros R EM. pose proof (sm_sp _ _ _ _ _ R i) as Q. destruct (sP i) as [| |v]; auto.
    - destruct Q as (s & t & Q1 & Q2). congruence.
    - destruct Q as ((t & Q1) & Q2 & _). congruence.
  Qed.
  Lemma n_out_t st a sP tP i os : smem cf st a sP tP -> a_map a i = Some (os, 0) -> tP i = Out.
  Proof.
    intros R EM. pose proof (sm_tp _ _ _ _ _ R i) as Q. destruct (tP i) as [| |v]; auto.
    - destruct Q as (s & t & Q1 & Q2). congruence.
    - destruct Q as ((t & Q1) & Q2 & _). congruence.
  Qed.

  Lemma n_relink st a sP tP i os ot s t : smem cf st a sP tP -> a_map a i = Some (os, ot) ->
    sP i <> home (a_map a) tP os \/ (sP i = home (a_map a) tP os /\ tree_lone (a_map a) sP i /\ tP i <> home (a_map a) tP ot) ->
    s_relink tops' st i os ot s t = Panic.
  Proof.
    intros R EM C. assert (OS : sP i <> home (a_map a) tP os -> os <> 0).
    { intros X ->. apply X. rewrite (n_out_s _ _ _ _ _ _ R EM). reflexivity. }
    assert (OT : tP i <> home (a_map a) tP ot -> ot <> 0).
    { intros X ->. apply X. rewrite (n_out_t _ _ _ _ _ _ R EM). reflexivity. }
    unfold s_relink. destruct C as [C|(C1 & C2 & C3)].
    - unfold s_when at 1. specialize (OS C). destruct (N.eqb_spec os 0); [contradiction|]. cbn [negb].
      rewrite (m_virtual cf _ _ _ _ os R). cbn [obind]. rewrite (n_detach_s _ _ _ _ os i R OS C). reflexivity.
    - assert (E1 : exists st1, s_when (negb (os =? 0)) (fun st0 => let* v := s_is_virtual st0 os in
          if v then s_detach_es tops' st0 i else s_detach_is tops' st0 os i) st = Val st1 /\ smem cf st1 a (upd sP i Out) tP).
      { unfold s_when. destruct (N.eqb_spec os 0) as [->|O0]; cbn [negb].
        - exists st. split; auto. eapply smem_pl; [| |exact R]; auto. intros j. unfold upd. destruct (N.eqb_spec j i) as [->|]; auto.
        - rewrite (m_virtual cf _ _ _ _ os R). cbn [obind]. rewrite virt_read by auto.
          destruct (readable (a_map a) tP os) eqn:RD; cbn [negb].
          + assert (HV : home (a_map a) tP os = Int os) by (now apply home_int). rewrite HV in C1.
            destruct (m_detach_is cf tops' lops ENV _ _ _ _ _ _ R C2 C1) as (st1 & E & R1 & _). eauto.
          + assert (HV : home (a_map a) tP os = Ext) by (now apply home_extern). rewrite HV in C1.
            destruct (m_detach_es cf tops' lops ENV _ _ _ _ _ R C2 C1) as (st1 & E & R1 & _). eauto. }
      destruct E1 as (st1 & E1 & R1). rewrite E1. cbn [obind]. unfold s_when at 1. specialize (OT C3).
      destruct (N.eqb_spec ot 0); [contradiction|]. cbn [negb].
      rewrite (m_virtual cf _ _ _ _ ot R1). cbn [obind]. rewrite (n_detach_t _ _ _ _ ot i R1 OT C3). reflexivity.
  Qed.
End Stray.

(** A link that is not where the store looks for it is taken out of a tree it is not in, whenever
    it is changed or deleted: with a tree that checks this, both calls panic. *)
Lemma L_C86_stray cf tops lops st D sP tP i os ot :
  let tops' := SplitLife.member_tree tops in let S := split_links cf tops' lops in
  unit_env cf tops lops -> clife cf tops' lops st D sP tP ->
  D i = Some (os, ot) -> readable D tP i = true ->
  sP i <> home D tP os \/ (tree_lone D sP i /\ tP i <> home D tP ot) ->
  unit_env cf tops' lops /\
  (forall s t H (h : whandler H) x, li_update S H h [i] [i; s; t] st x = Panic) /\
  (users_lone D sP tP i -> forall H (h : whandler H) x, li_delete S H h [i] st x = Panic).
Proof.
  intros tops' S ENV0 HL EM RD C.
  assert (ENV : unit_env cf tops' lops).
  { destruct ENV0 as (E1 & E2 & E3). split; [exact E1|]. split; [apply SplitLife.member_tree_ok; exact E2|exact E3]. }
  split; [exact ENV|]. subst S. destruct (clife_inv cf tops' lops ENV _ _ _ _ HL) as (B & top & fr & R). set (a := mkA top fr D) in *.
  assert (C' : sP i <> home D tP os \/ (sP i = home D tP os /\ tree_lone D sP i /\ tP i <> home D tP ot)).
  { destruct (place_eq (sP i) (home D tP os)) as [E|E]; [|auto]. destruct C as [C|[C1 C2]]; [contradiction|]. auto. }
  split.
  - intros s t H h x. cbn [li_update split_links]. unfold s_update. rewrite qget_0, qget_1, qget_2. cbn [obind].
    rewrite (m_get cf tops' lops ENV _ _ _ _ i R). cbn [obind]. unfold seen. cbn [a_map a]. rewrite RD, EM. cbn [olink l_source l_target].
    unfold tops'. rewrite (n_relink cf tops lops ENV _ _ _ _ i os ot s t R); auto.
  - intros UL H h x. cbn [li_delete split_links]. unfold s_delete. change (qget [i] 0) with (Val i). cbn [obind].
    rewrite (m_get cf tops' lops ENV _ _ _ _ i R). cbn [obind]. unfold seen at 1. cbn [a_map a]. rewrite RD, EM. cbn [olink].
    destruct (m_resolve_internal cf tops' lops ENV _ _ _ _ i R RD UL) as (st0 & E0 & R0 & _). rewrite E0. cbn [obind].
    unfold s_update. rewrite qget_0, qget_1, qget_2. cbn [obind].
    rewrite (m_get cf tops' lops ENV _ _ _ _ i R0). cbn [obind]. unfold seen. rewrite moved_readable. cbn [a_map a]. rewrite RD, EM. cbn [olink l_source l_target].
    unfold tops'. rewrite (n_relink cf tops lops ENV _ _ _ _ i os ot 0 0 R0); [reflexivity|exact EM|]. rewrite !moved_self, !moved_home.
    destruct C' as [C'|(C1 & C2 & C3)]; [auto|right]. split; auto. split; auto.
    intros O j J1 J2. rewrite moved_self in *. unfold SplitWrites.moved in J1. cbn [a_map a] in J2. destruct (N.eqb_spec j i) as [|NE]; auto.
    destruct (sP j) as [| |w] eqn:E; try (apply C2; congruence).
    destruct (N.eqb_spec w i) as [->|]; [|apply C2; congruence].
    pose proof (sm_sp _ _ _ _ _ R j) as Q. rewrite E in Q. destruct Q as ((t & Q) & _). cbn [a_map a] in *.
    rewrite Q, EM in J2. injection J2 as <- _. rewrite C1 in J1. symmetry in J1. apply home_extern in J1. destruct J1; congruence.
Qed.

Section Uncovered.
  Variables (cf : cfg) (tops : tree_ops) (lops : list_ops).
  Notation lops' := (AfterCrash.checked_list lops).
  Hypothesis ENV : unit_env cf tops lops'.

  Lemma n_trim_refused : forall n fuel st a sP tP l,
    smem cf st a sP tP -> N.to_nat (a_top a) = n -> (n < fuel)%nat ->
    a_map a l <> None -> readable (a_map a) tP l = false -> (forall k, l < k -> a_map a k = None) -> s_trim lops' fuel st = Panic.
  Proof.
    induction n as [|n IH]; intros fuel st a sP tP l R TN F L RD NK; destruct fuel as [|fuel]; try lia; cbn [s_trim].
    - exfalso. apply (sm_dom _ _ _ _ _ R) in L. lia.
    - pose proof (proj1 (sm_dom _ _ _ _ _ R l) L) as [LT LF].
      rewrite (s_header_ok _ _ _ _ _ R). cbn [obind]. rewrite (sm_alloc _ _ _ _ _ R).
      destruct (N.ltb_spec 0 (a_top a)) as [_|]; [|lia].
      rewrite (m_unused cf _ _ _ _ _ R) by lia. cbn [obind].
      destruct (N.eq_dec l (a_top a)) as [->|NE].
      + rewrite RD. cbn [negb]. unfold s_unused_detach. rewrite (s_view_ok _ _ _ _ _ R). cbn [obind l_detach AfterCrash.checked_list].
        rewrite (AfterCrash.nexts_lrep _ _ _ (sm_list _ _ _ _ _ R)).
        destruct (existsb (N.eqb (a_top a)) (a_free a)) eqn:EX; [|reflexivity]. exfalso.
        apply existsb_exists in EX as (x & X1 & X2). apply N.eqb_eq in X2. subst x. contradiction.
      + assert (EM : a_map a (a_top a) = None) by (apply NK; lia).
        assert (RT : readable (a_map a) tP (a_top a) = false) by (unfold readable; now rewrite EM). rewrite RT. cbn [negb].
        assert (HI : In (a_top a) (a_free a)).
        { destruct (in_dec N.eq_dec (a_top a) (a_free a)); auto. exfalso.
          assert (K : a_map a (a_top a) <> None) by (apply (sm_dom _ _ _ _ _ R); split; [lia|auto]). congruence. }
        destruct (s_unused_detach_ok cf lops' (proj2 (proj2 ENV)) _ _ _ _ (a_top a) R HI) as (st1 & E1 & R1 & _).
        rewrite E1. cbn [obind]. rewrite csub_ok by lia. cbn [obind].
        pose proof (s_lower_ok cf st1 _ _ _ R1) as R2. cbn [a_top a_free a_map] in R2.
        specialize (R2 ltac:(lia) (upd_same _ _ _ _)).
        assert (NS : forall x, sP x <> Int (a_top a)).
        { intros x K. pose proof (sm_sp _ _ _ _ _ R x) as O. rewrite K in O. tauto. }
        assert (NT : forall x, tP x <> Int (a_top a)).
        { intros x K. pose proof (sm_tp _ _ _ _ _ R x) as O. rewrite K in O. tauto. }
        specialize (R2 NS NT). match type of R2 with smem _ _ ?b _ _ => set (a2 := b) in * end.
        assert (MM : forall j, a_map a2 j = a_map a j).
        { intros j. unfold a2. cbn [a_map]. unfold upd. destruct (N.eqb_spec j (a_top a)) as [->|]; auto. }
        apply (IH fuel _ a2 _ _ l R2); [unfold a2; cbn [a_top]; lia|lia| | |].
        * now rewrite MM.
        * rewrite <- RD. apply readable_ext; auto.
        * intros k LK. rewrite MM. auto.
  Qed.
End Uncovered.

(** Deleting the last link, if the highest stored link left cannot be read: the loop that lowers
    [allocated] takes that link for an unused one and detaches it from the list of unused links,
    which does not have it.  With a list that checks this, the call panics. *)
Lemma L_C86_uncovered cf tops lops st D sP tP i os ot l :
  let lops' := AfterCrash.checked_list lops in let S := split_links cf tops lops' in
  unit_env cf tops lops -> clife cf tops lops' st D sP tP -> may_update D sP tP i os ot -> users_lone D sP tP i ->
  i = sh_alloc st -> l <> i -> D l <> None -> readable D tP l = false -> (forall k, l < k -> k <> i -> D k = None) ->
  unit_env cf tops lops' /\
  forall H (h : whandler H) x, li_delete S H h [i] st x = Panic.
Proof.
  intros lops' S ENV0 HL [EM RD MS MT ML] UL IT LI LN RL NK.
  assert (ENV : unit_env cf tops lops').
  { destruct ENV0 as (E1 & E2 & E3). split; [exact E1|]. split; [exact E2|apply AfterCrash.checked_list_ok; exact E3]. }
  split; [exact ENV|]. intros H h x. subst S. destruct (clife_inv cf tops lops' ENV _ _ _ _ HL) as (B & top & fr & R).
  set (a := mkA top fr D) in *.
  destruct (m_resolve_internal cf tops lops' ENV _ _ _ _ i R RD UL) as (st0 & E0 & R0 & _).
  destruct (m_relink cf tops lops' ENV st0 a _ _ i os ot 0 0 R0 EM) as (st1 & E1 & R1 & _).
  { eapply moved_lone; eauto. }
  { now rewrite moved_self, moved_home. }
  { now rewrite moved_self, moved_home. }
  pose proof (m_range cf _ _ _ _ _ R RD) as IR.
  assert (TI : i = a_top a) by (rewrite IT; exact (sm_alloc _ _ _ _ _ R)).
  assert (NS : forall y, upd (SplitWrites.moved i sP) i (home D (upd (SplitWrites.moved i tP) i Out) 0) y <> Int i).
  { intros y. unfold upd, SplitWrites.moved. destruct (y =? i); [discriminate|]. destruct (sP y) as [| |v]; try discriminate. destruct (N.eqb_spec v i); congruence. }
  assert (NT : forall y, upd (SplitWrites.moved i tP) i (home D (upd (SplitWrites.moved i tP) i Out) 0) y <> Int i).
  { intros y. unfold upd, SplitWrites.moved. destruct (y =? i); [discriminate|]. destruct (tP y) as [| |v]; try discriminate. destruct (N.eqb_spec v i); congruence. }
  pose proof (m_lowered cf _ _ _ _ _ R1 ltac:(lia) TI NS NT) as R2.
  cbn [li_delete split_links]. unfold s_delete. change (qget [i] 0) with (Val i). cbn [obind].
  rewrite (m_get cf tops lops' ENV _ _ _ _ i R). cbn [obind]. unfold seen at 1. cbn [a_map a]. rewrite RD, EM. cbn [olink]. rewrite E0.
  cbn [obind]. unfold s_update. rewrite qget_0, qget_1, qget_2. cbn [obind].
  rewrite (m_get cf tops lops' ENV _ _ _ _ i R0). cbn [obind]. unfold seen. rewrite moved_readable. cbn [a_map a]. rewrite RD, EM. cbn [olink l_source l_target].
  rewrite E1. cbn [obind]. rewrite (s_header_ok _ _ _ _ _ R1). cbn [obind].
  rewrite (sm_alloc _ _ _ _ _ R1). cbn [a_top a_update]. rewrite TI at 1. change (a_top a) with top. rewrite N.compare_refl. rewrite csub_ok by (cbn [a a_top] in *; lia). cbn [obind].
  cbn [a_top a_free a_map a] in R2. unfold lops'.
  rewrite (n_trim_refused cf tops lops ENV (N.to_nat (top - 1)) (s_fuel st1) _ _ _ _ l R2); [reflexivity|reflexivity| | | |]; cbn [a_map].
  - unfold s_fuel. rewrite (sm_alloc _ _ _ _ _ R1). cbn [a_top a_update a] in *. lia.
  - now rewrite upd_other.
  - rewrite <- RL, <- (moved_readable D tP i l). apply readable_ext; now apply upd_other.
  - intros k LK. destruct (N.eq_dec k i) as [->|NE]; [apply upd_same|]. rewrite upd_other by auto. now apply NK.
Qed.

(** ** Stores without interruptions *)
(** Every store with a history without interruptions is the start of a life, in which exactly the
    links are stored.  A link that shares its pair with no other may be updated, and deleted if
    the same is true of the links that refer to it. *)
Lemma L_C86_start cf tops lops st d :
  let S := split_links cf tops lops in
  unit_env cf tops lops -> s_hist cf tops lops st d ->
  exists D sP tP, clife cf tops lops st D sP tP /\
    (forall i s t, D i = Some (s, t) <-> is_link S st i s t) /\
    forall i os ot, is_link S st i os ot -> separable S st i ->
      may_update D sP tP i os ot /\
      ((forall j s t, is_link S st j s t -> j <> i -> s = i \/ t = i -> separable S st j) -> may_delete D sP tP i os ot).
Proof.
  intros S ENV HH. subst S. destruct (s_hist_inv cf tops lops ENV st d HH) as (a & K & _). pose proof (f_ok _ _ _ ENV) as OK.
  pose proof K as [(R & W & VI) B].
  assert (LK : forall i s t, a_map a i = Some (s, t) <-> is_link (split_links cf tops lops) st i s t).
  { intros i s t. symmetry. exact (ob_link cf _ _ _ OK _ _ _ _ _ K). }
  assert (RD : forall i, a_map a i <> None -> readable (a_map a) (tpl a) i = true).
  { intros i X. unfold readable. destruct (a_map a i) as [[s t]|] eqn:E; [|contradiction].
    apply orb_true_iff. destruct (N.eq_dec t 0) as [->|T0]; [left; apply N.eqb_eq; exact (VI _ _ E)|right].
      unfold tpl, place_of. rewrite E. apply N.eqb_neq in T0. rewrite T0. now destruct (a_map a t). }
  assert (HM : forall v, home (a_map a) (tpl a) v = place_of a v).
  { intros v. unfold home, place_of. destruct (v =? 0); auto. destruct (a_map a v) eqn:AV.
    - rewrite RD; auto. congruence.
    - unfold readable. now rewrite AV. }
  assert (HS : forall i, spl a i = match a_map a i with Some (s, _) => home (a_map a) (tpl a) s | None => Out end).
  { intros i. unfold spl. destruct (a_map a i) as [[s t]|]; auto. }
  assert (HT : forall i, tpl a i = match a_map a i with Some (_, t) => home (a_map a) (tpl a) t | None => Out end).
  { intros i. unfold tpl at 1. destruct (a_map a i) as [[s t]|]; auto. }
  exists (a_map a), (spl a), (tpl a). split; [|split; [exact LK|]].
  { eapply cl_start; eauto. }
  assert (LO : forall i, separable (split_links cf tops lops) st i -> tree_lone (a_map a) (spl a) i /\ tree_lone (a_map a) (tpl a) i).
  { intros i SE. assert (X : a_map a i = Some (0, 0) \/ forall j, a_map a i <> None -> a_map a j = a_map a i -> j = i).
    { destruct SE as [SE|SE]; [left; now apply LK|right]. intros j X E. destruct (a_map a i) as [[s t]|] eqn:M; [|contradiction].
      apply (SE j s t); now apply LK. }
    split; intros O j J1 J2; destruct X as [X|X].
    - exfalso. apply O. unfold spl. now rewrite X.
    - apply X; auto. intros Y. apply O. unfold spl. now rewrite Y.
    - exfalso. apply O. unfold tpl. now rewrite X.
    - apply X; auto. intros Y. apply O. unfold tpl. now rewrite Y. }
  intros i os ot LI SE. apply LK in LI. pose proof (LO _ SE) as LL.
  assert (X1 : readable (a_map a) (tpl a) i = true) by (apply RD; congruence).
  assert (X2 : spl a i = home (a_map a) (tpl a) os) by (rewrite HS, LI; reflexivity).
  assert (X3 : tpl a i = home (a_map a) (tpl a) ot) by (rewrite HT, LI; reflexivity).
  split; [constructor; auto|]. intros US. constructor; auto.
  - intros x NE. split; intros X.
    + apply LO. apply spl_int in X as (t & X & _). apply (US x i t); auto. now apply LK.
    + apply LO. unfold tpl in X. destruct (a_map a x) as [[s t]|] eqn:M; [|discriminate].
      apply (US x s t); auto; [now apply LK|]. right. unfold place_of in X. destruct (t =? 0); [discriminate|].
      destruct (a_map a t); [now injection X|discriminate].
  - intros _ l L _. assert (NE : l <> i) by (intros ->; rewrite upd_same in L; congruence). rewrite upd_other in L by auto.
    rewrite (readable_ext (upd (a_map a) i None) (a_map a) (tpl a) (tpl a) l); auto. now apply upd_other.
Qed.

(** ** Examples *)
Section Ex.
  Variables (tops : tree_ops) (lops : list_ops).
  Hypothesis ENV : unit_env ex_cf tops lops.
  Notation S := (split_links ex_cf tops lops).

  Lemma ex_began l st : scheck a_empty l = true -> run S l ex_sstart = Some st ->
    clife ex_cf tops lops st (a_map (arun a_empty l)) (spl (arun a_empty l)) (tpl (arun a_empty l)).
  Proof.
    intros A E. destruct (srun_ok ex_cf tops lops ENV l ex_sstart a_empty [] st) as (d & HH & K); auto.
    { apply histc_start. exact ex_s_start. }
    { exact (s_start_inv _ _ _ ENV _ ex_s_start). }
    set (a := arun a_empty l) in *. pose proof (f_ok _ _ _ ENV) as OK. pose proof K as [(R & W & VI) B].
    assert (RD : forall i, a_map a i <> None -> readable (a_map a) (tpl a) i = true).
    { intros i X. unfold readable. destruct (a_map a i) as [[s t]|] eqn:E1; [|contradiction].
      apply orb_true_iff. destruct (N.eq_dec t 0) as [->|T0]; [left; apply N.eqb_eq; exact (VI _ _ E1)|right].
      unfold tpl, place_of. rewrite E1. apply N.eqb_neq in T0. rewrite T0. now destruct (a_map a t). }
    assert (HM : forall v, home (a_map a) (tpl a) v = place_of a v).
    { intros v. unfold home, place_of. destruct (v =? 0); auto. destruct (a_map a v) eqn:AV.
      - rewrite RD; auto. congruence.
      - unfold readable. now rewrite AV. }
    eapply cl_start; eauto.
    - intros i s t. symmetry. exact (ob_link ex_cf _ _ _ OK _ _ _ _ _ K).
    - intros i. unfold spl. destruct (a_map a i) as [[s t]|]; auto.
    - intros i. unfold tpl at 1. destruct (a_map a i) as [[s t]|]; auto.
  Qed.

  Definition same_pair (p q : option (N * N)) : bool :=
    match p, q with Some (a, b), Some (c, d) => (a =? c) && (b =? d) | _, _ => false end.
  Definition all_differ (D : stored) (n : nat) : bool :=
    forallb (fun i => forallb (fun j => negb (same_pair (D (N.of_nat i)) (D (N.of_nat j))) || Nat.eqb i j) (seq 1 n)) (seq 1 n).
  Lemma ex_lone st D sP tP n : clife ex_cf tops lops st D sP tP -> sh_alloc st = N.of_nat n -> all_differ D n = true ->
    forall x, tree_lone D sP x /\ tree_lone D tP x.
  Proof.
    intros HL HA AD x. pose proof (clife_inv ex_cf tops lops ENV _ _ _ _ HL) as K. pose proof K as (_ & top & fr & R).
    assert (G : D x <> None -> forall j, D j = D x -> j = x).
    { intros X j E. assert (J : D j <> None) by congruence.
      pose proof (c_range ex_cf _ _ _ _ x K X) as RX. pose proof (c_range ex_cf _ _ _ _ j K J) as RJ. rewrite HA in *.
      unfold all_differ in AD. rewrite forallb_forall in AD.
      assert (IX : In (N.to_nat x) (seq 1 n)) by (apply in_seq; lia). assert (IJ : In (N.to_nat j) (seq 1 n)) by (apply in_seq; lia).
      specialize (AD _ IJ). rewrite forallb_forall in AD. specialize (AD _ IX). rewrite !Nnat.N2Nat.id, E in AD.
      destruct (D x) as [[p q]|]; [|contradiction]. cbn [same_pair] in AD. rewrite !N.eqb_refl in AD. cbn in AD.
      apply PeanoNat.Nat.eqb_eq in AD. lia. }
    split; intros O j J1 J2; apply G; auto; intros X; apply O.
    - pose proof (sm_sp _ _ _ _ _ R x) as Q. cbn [a_map] in Q. destruct (sP x) as [| |v]; auto.
      + destruct Q as (s & t & Q & _). cbn [a_map] in Q. congruence.
      + destruct Q as ((t & Q) & _). cbn [a_map] in Q. congruence.
    - pose proof (sm_tp _ _ _ _ _ R x) as Q. destruct (tP x) as [| |v]; auto.
      + destruct Q as (s & t & Q & _). cbn [a_map] in Q. congruence.
      + destruct Q as ((t & Q) & _). cbn [a_map] in Q. congruence.
  Qed.
  Lemma ex_update st D sP tP n i os ot : clife ex_cf tops lops st D sP tP -> sh_alloc st = N.of_nat n -> all_differ D n = true ->
    D i = Some (os, ot) -> readable D tP i = true -> sP i = home D tP os -> tP i = home D tP ot -> may_update D sP tP i os ot.
  Proof. intros HL HA AD E1 E2 E3 E4. constructor; auto. exact (ex_lone _ _ _ _ _ HL HA AD i). Qed.
  Lemma ex_users st D sP tP n i : clife ex_cf tops lops st D sP tP -> sh_alloc st = N.of_nat n -> all_differ D n = true -> users_lone D sP tP i.
  Proof. intros HL HA AD x _. destruct (ex_lone _ _ _ _ _ HL HA AD x). auto. Qed.
  Lemma ex_delete st D sP tP n i os ot k : clife ex_cf tops lops st D sP tP -> sh_alloc st = N.of_nat n -> all_differ D n = true ->
    D i = Some (os, ot) -> readable D tP i = true -> sP i = home D tP os -> tP i = home D tP ot ->
    i < k -> D k <> None -> may_delete D sP tP i os ot.
  Proof.
    intros HL HA AD E1 E2 E3 E4 LK DK. constructor; auto.
    - exact (ex_lone _ _ _ _ _ HL HA AD i).
    - exact (ex_users _ _ _ _ _ i HL HA AD).
    - intros X. exfalso. apply DK, X, LK.
  Qed.
End Ex.

Definition ex_stopat (tops : tree_ops) (lops : list_ops) (l : list cmd) (i os ot s t : N) (k : nat) : sst :=
  match run (split_links ex_cf tops lops) l ex_sstart with
  | Some st => ex_val (s_stop tops st i os ot s t k)
  | None => ex_sstart
  end.
Definition ex_pairs (l : list cmd) (i os ot s t : N) (k : nat) : stored := upd (a_map (arun a_empty l)) i (Some (s_fields k os ot s t)).
Definition ex_src (l : list cmd) (i s : N) (k : nat) : N -> place :=
  stop_s (a_map (arun a_empty l)) (spl (arun a_empty l)) (tpl (arun a_empty l)) i s k.
Definition ex_tgt (l : list cmd) (i t : N) (k : nat) : N -> place := stop_t (a_map (arun a_empty l)) (tpl (arun a_empty l)) i t k.

(** Link [i] of the store made by [l], changed up to point [k], and the memories opened again. *)
Lemma ex_after tops lops l n i os ot s t k : let a := arun a_empty l in
  unit_env ex_cf tops lops -> scheck a_empty l = true ->
  match run (split_links ex_cf tops lops) l ex_sstart with
  | Some st => (sh_alloc st =? N.of_nat n) && match s_stop tops st i os ot s t k with Val _ => true | _ => false end
  | None => false
  end = true ->
  all_differ (a_map a) n = true -> a_map a i = Some (os, ot) -> readable (a_map a) (tpl a) i = true ->
  spl a i = home (a_map a) (tpl a) os -> tpl a i = home (a_map a) (tpl a) ot ->
  let st1 := ex_stopat tops lops l i os ot s t k in
  sh_alloc st1 < s_capacity ex_cf (sh_alloc st1) -> s_open ex_cf (s_persist st1 all_grown) = Val (Ok (ex_sopened st1)) ->
  clife ex_cf tops lops (ex_sopened st1) (ex_pairs l i os ot s t k) (ex_src l i s k) (ex_tgt l i t k).
Proof.
  intros a ENV A E AD E1 E2 E3 E4 st1 CA OP. unfold st1, ex_stopat in *. clear st1.
  destruct (run (split_links ex_cf tops lops) l ex_sstart) as [st|] eqn:ER; [|discriminate].
  apply andb_true_iff in E as [HA E]. apply N.eqb_eq in HA.
  destruct (s_stop tops st i os ot s t k) as [st1| | |] eqn:ES; try discriminate. cbn [ex_val] in *.
  pose proof (ex_began tops lops ENV l st A ER) as HL.
  pose proof (ex_update tops lops ENV _ _ _ _ n i os ot HL HA AD E1 E2 E3 E4) as MU.
  eapply cl_step; [exact HL|]. eapply cs_stop_update; [exact MU|exact ES| | | |]; try (intros j; reflexivity).
  split; [exact CA|]. exists all_grown. split; [intros ? ? ?; discriminate|exact OP].
Qed.

(** In [ex3] links 1, 2 and 3 are (1,1), (1,2) and (2,1); link 2 was being changed to (3,1). *)
Definition ex_half (tops : tree_ops) (lops : list_ops) : sst := ex_sopened (ex_stopat tops lops ex3 2 1 2 3 1 5).
Lemma ex_half_life : clife ex_cf ref_tree_ops ref_list_ops (ex_half ref_tree_ops ref_list_ops) (ex_pairs ex3 2 1 2 3 1 5) (ex_src ex3 2 3 5) (ex_tgt ex3 2 1 5).
Proof. apply (ex_after _ _ _ 3); try exact ex_env; vm_compute; reflexivity. Qed.
Lemma ex_half_stray : clife ex_cf (SplitLife.member_tree ref_tree_ops) ref_list_ops (ex_half (SplitLife.member_tree ref_tree_ops) ref_list_ops)
  (ex_pairs ex3 2 1 2 3 1 5) (ex_src ex3 2 3 5) (ex_tgt ex3 2 1 5).
Proof. apply (ex_after _ _ _ 3); try exact SplitLife.ex_env_member; vm_compute; reflexivity. Qed.
(** Link 2 refers to 3 as its target; link 3 was being changed. *)
Definition ex_t3 : list cmd := [Cr; Cr; Cr; Up 1 1 1; Up 2 1 3; Up 3 3 1].
Lemma ex_t3_stray : clife ex_cf (SplitLife.member_tree ref_tree_ops) ref_list_ops
  (ex_sopened (ex_stopat (SplitLife.member_tree ref_tree_ops) ref_list_ops ex_t3 3 3 1 1 2 2))
  (ex_pairs ex_t3 3 3 1 1 2 2) (ex_src ex_t3 3 1 2) (ex_tgt ex_t3 3 2 2).
Proof. apply (ex_after _ _ _ 3); try exact SplitLife.ex_env_member; vm_compute; reflexivity. Qed.
(** Link 3 is the last link, and link 2 was being changed. *)
Definition ex_u3 : list cmd := [Cr; Cr; Cr; Up 1 1 1; Up 2 1 2; Up 3 3 1].
Lemma ex_env_checked : unit_env ex_cf ref_tree_ops (AfterCrash.checked_list ref_list_ops).
Proof. destruct ex_env as (E1 & E2 & E3). split; [exact E1|]. split; [exact E2|apply AfterCrash.checked_list_ok; exact E3]. Qed.
Lemma ex_u3_life : clife ex_cf ref_tree_ops (AfterCrash.checked_list ref_list_ops)
  (ex_sopened (ex_stopat ref_tree_ops (AfterCrash.checked_list ref_list_ops) ex_u3 2 1 2 3 1 2))
  (ex_pairs ex_u3 2 1 2 3 1 2) (ex_src ex_u3 2 3 2) (ex_tgt ex_u3 2 1 2).
Proof. apply (ex_after _ _ _ 3); try exact ex_env_checked; vm_compute; reflexivity. Qed.

(** A life with a link that cannot be read, in which link 1 may be updated and deleted, and both
    may be interrupted again. *)
Lemma L_C86_nonvacuous : exists st D sP tP,
  clife ex_cf ref_tree_ops ref_list_ops st D sP tP /\ D 2 = Some (3, 1) /\ tP 2 = Out /\ sP 2 = home D tP 3 /\
  is_link ex_S st 1 1 1 /\ is_link ex_S st 3 2 1 /\ no_link ex_S st 2 /\
  may_update D sP tP 1 1 1 /\ may_delete D sP tP 1 1 1 /\
  (exists st1 st', s_delete_at ex_cf ref_tree_ops ref_list_ops st 1 1 1 (Resolving (MidTarget 0 3)) st1 /\ reopened ex_cf st1 st') /\
  (exists st1 st', s_stop ref_tree_ops st 1 1 1 3 3 3 = Val st1 /\ reopened ex_cf st1 st') /\
  (exists st1 st', s_create_point ex_cf ref_tree_ops ref_list_ops st st1 /\ reopened ex_cf st1 st' /\ is_link ex_S st' 4 0 0).
Proof.
  set (st := ex_half ref_tree_ops ref_list_ops). exists st, (ex_pairs ex3 2 1 2 3 1 5), (ex_src ex3 2 3 5), (ex_tgt ex3 2 1 5).
  pose proof ex_half_life as HL. fold st in HL. split; [exact HL|].
  assert (HA : sh_alloc st = N.of_nat 3) by (vm_compute; reflexivity).
  assert (AD : all_differ (ex_pairs ex3 2 1 2 3 1 5) 3 = true) by (vm_compute; reflexivity).
  do 3 (split; [vm_compute; reflexivity|]).
  do 3 (split; [unfold is_link, no_link; vm_compute; reflexivity|]).
  split; [apply (ex_update _ _ ex_env _ _ _ _ 3 1 1 1 HL HA AD); vm_compute; reflexivity|].
  split; [apply (ex_delete _ _ ex_env _ _ _ _ 3 1 1 1 3 HL HA AD); vm_compute; (reflexivity || discriminate)|].
  assert (RE : forall st1, sh_alloc st1 < s_capacity ex_cf (sh_alloc st1) -> s_open ex_cf (s_persist st1 all_grown) = Val (Ok (ex_sopened st1)) ->
            reopened ex_cf st1 (ex_sopened st1)).
  { intros st1 X Y. split; auto. exists all_grown. split; [intros ? ? ?; discriminate|exact Y]. }
  split; [|split].
  - set (u := ex_list (users_s ex_cf st 1)). set (m0 := ex_val (s_for u (move_s ref_tree_ops 1) st)). set (m1 := ex_val (s_detach_it ref_tree_ops m0 1 3)).
    exists m1, (ex_sopened m1). split; [|apply RE; vm_compute; reflexivity].
    exists u. split; [vm_compute; reflexivity|]. exists m0, (ex_list (users_t ex_cf m0 1)). split; [vm_compute; reflexivity|]. split; [vm_compute; reflexivity|].
    exists m0, (mkLink 3 2 1). split; [reflexivity|]. split; [vm_compute; reflexivity|]. split; [reflexivity|]. vm_compute; reflexivity.
  - set (m1 := ex_val (s_stop ref_tree_ops st 1 1 1 3 3 3)). exists m1, (ex_sopened m1). split; [vm_compute; reflexivity|]. apply RE; vm_compute; reflexivity.
  - set (m1 := match li_create ex_S unit cont [] st tt with Val (s, _, _) => s | _ => st end).
    exists m1, (ex_sopened m1). split; [|split; [apply RE; vm_compute; reflexivity|unfold is_link; vm_compute; reflexivity]].
    eapply (SP_done _ _ _ _ unit cont [] tt m1 tt (Ok Continue)). vm_compute; reflexivity.
Qed.

(** The cases of [L_C86_stray] and [L_C86_uncovered]. *)
Lemma L_C86_outside_nonvacuous :
  (exists st D sP tP, clife ex_cf (SplitLife.member_tree ref_tree_ops) ref_list_ops st D sP tP /\ D 3 = Some (2, 1) /\
     readable D tP 3 = true /\ sP 3 <> home D tP 2 /\ users_lone D sP tP 3) /\
  (exists st D sP tP, clife ex_cf (SplitLife.member_tree ref_tree_ops) ref_list_ops st D sP tP /\ D 2 = Some (1, 3) /\
     readable D tP 2 = true /\ sP 2 = home D tP 1 /\ tree_lone D sP 2 /\ tP 2 <> home D tP 3 /\ users_lone D sP tP 2) /\
  (exists st D sP tP, clife ex_cf ref_tree_ops (AfterCrash.checked_list ref_list_ops) st D sP tP /\ may_update D sP tP 3 3 1 /\
     users_lone D sP tP 3 /\ sh_alloc st = 3 /\ D 2 <> None /\ readable D tP 2 = false /\ forall k, 2 < k -> k <> 3 -> D k = None).
Proof.
  split; [|split].
  - eexists _, _, _, _. split; [exact ex_half_stray|]. do 2 (split; [vm_compute; reflexivity|]). split; [vm_compute; discriminate|].
    apply (ex_users _ _ SplitLife.ex_env_member _ _ _ _ 3 3 ex_half_stray); vm_compute; reflexivity.
  - eexists _, _, _, _. split; [exact ex_t3_stray|]. do 3 (split; [vm_compute; reflexivity|]).
    split; [apply (ex_lone _ _ SplitLife.ex_env_member _ _ _ _ 3 ex_t3_stray); vm_compute; reflexivity|]. split; [vm_compute; discriminate|].
    apply (ex_users _ _ SplitLife.ex_env_member _ _ _ _ 3 2 ex_t3_stray); vm_compute; reflexivity.
  - eexists _, _, _, _. split; [exact ex_u3_life|].
    split; [apply (ex_update _ _ ex_env_checked _ _ _ _ 3 3 3 1 ex_u3_life); vm_compute; reflexivity|].
    split; [apply (ex_users _ _ ex_env_checked _ _ _ _ 3 3 ex_u3_life); vm_compute; reflexivity|].
    split; [vm_compute; reflexivity|]. split; [vm_compute; discriminate|]. split; [vm_compute; reflexivity|].
    intros k K1 K2. destruct (ex_pairs ex_u3 2 1 2 3 1 2 k) eqn:E; auto. exfalso.
    pose proof (clife_inv _ _ _ ex_env_checked _ _ _ _ ex_u3_life) as K. assert (X : ex_pairs ex_u3 2 1 2 3 1 2 k <> None) by congruence.
    apply (c_range _ _ _ _ _ k K) in X. match type of X with _ <= _ <= ?n => assert (HA : n = 3) by (vm_compute; reflexivity) end. lia.
Qed.

(** A link that get does not show is found by its source and counted, and searching its pair is
    undefined behaviour. *)
Lemma L_C86_refuted : exists st D sP tP, let any := c_any ex_cf in
  clife ex_cf ref_tree_ops ref_list_ops st D sP tP /\ no_link ex_S st 2 /\
  (forall H (h : rhandler H) x, li_each ex_S H h [any; 3; any] st x = Val (run_handler h [mkLink 2 3 1] x)) /\
  li_count ex_S st [] = Val 3 /\
  (forall H (h : rhandler H) x, li_each ex_S H h [] st x = Val (run_handler h [mkLink 1 1 1; mkLink 3 2 1] x)) /\
  (forall H (h : rhandler H) x, li_each ex_S H h [any; 3; 1] st x = UB).
Proof.
  eexists _, _, _, _. split; [exact ex_half_life|]. split; [unfold no_link; vm_compute; reflexivity|].
  split; [intros H h x; vm_compute; destruct (h x _) as [? []]; reflexivity|]. split; [vm_compute; reflexivity|].
  split; [intros H h x; vm_compute; destruct (h x _) as [y []]; [destruct (h y _) as [? []]|]; reflexivity|].
  intros; vm_compute; reflexivity.
Qed.
