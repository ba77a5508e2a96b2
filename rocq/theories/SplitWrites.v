(** create, update, delete and opening of the two-memory store against the specification. *)
From Coq Require Import NArith List Bool Lia Permutation.
From Verif Require Import Base Trees Lists TreeInv Spec Iface UnitModel UnitInv UnitOps LinkModel SplitModel Forest
  SplitInv SplitReads SplitOps.
Import ListNotations.
Open Scope N_scope.

(** The users of [i], other than [i] itself, go to the external tree. *)
Definition moved (i : N) (pl : N -> place) (x : N) : place :=
  if x =? i then pl x else match pl x with Int v => if v =? i then Ext else Int v | p => p end.

(** No other link has the pair of a link that refers to [i]. *)
Definition users_detachable (a : astate) (i : N) : Prop :=
  forall x s t, a_map a x = Some (s, t) -> x <> i -> s = i \/ t = i -> detachable a x.

(** Nothing refers to [i]. *)
Definition unreferenced (a : astate) (i : N) : Prop :=
  forall x s t, a_map a x = Some (s, t) -> s <> i /\ t <> i.

Lemma run_collect : forall L acc,
  run_handler (fun (v : list link) l => (v ++ [l], Continue)) L acc = (acc ++ L, Continue).
Proof.
  induction L as [|l L IH]; intros acc; cbn [run_handler]; [now rewrite app_nil_r|].
  rewrite IH, <- app_assoc. reflexivity.
Qed.

Lemma nodup_map_filter (f : link -> bool) d U : NoDup U -> NoDup (map l_index (filter f (map (link_of d) U))).
Proof.
  induction 1 as [|x U NI ND IH]; cbn [map filter]; [constructor|].
  destruct (f (link_of d x)); [|exact IH]. cbn [map]. constructor; auto.
  cbn [l_index link_of]. intros K. apply in_map_iff in K as (k & E & K). apply filter_In in K as [K _].
  apply in_map_iff in K as (y & <- & K). cbn in E. congruence.
Qed.

Section Writes.
  Variable cf : cfg.
  Hypothesis CF : cfg_ok cf.
  Variable tops : tree_ops.
  Hypothesis TOK : tree_ops_ok tops.
  Variable lops : list_ops.
  Hypothesis LOK : list_ops_ok lops.

  (** ** The lists of users *)
  Lemma s_users_s st a sP tP i : smem cf st a sP tP -> all_placed a tP -> a_map a i <> None ->
    exists U, NoDup U /\ (forall x, In x U <-> sP x = Int i) /\
      s_each_iter cf st [c_any cf; i; c_any cf] = Val (map (link_of (s_data st)) U).
  Proof.
    intros R V EM. assert (EM' := EM). apply (sm_dom _ _ _ _ _ R) in EM as [IR _].
    destruct (s_is_walk _ _ _ _ _ i R) as (U & ND & IN & EA & CO); [lia|lia|].
    exists U. split; auto. split; auto.
    unfold s_each_iter, s_count, s_each, s_each3. rewrite (ok_ipart _ CF), (ok_spart _ CF), (ok_tpart _ CF).
    rewrite qget_0, qget_1, qget_2. cbn [obind].
    rewrite !(s_is_virtual_ok _ _ _ _ _ _ R V). cbn [obind]. rewrite N.eqb_refl.
    pose proof (sm_iend _ _ _ _ _ R). pose proof (ok_iend _ CF).
    destruct (N.eqb_spec i (c_any cf)); [lia|]. cbn [andb].
    assert (VI : isvirt a i = false).
    { unfold isvirt. destruct (N.eqb_spec i 0); [lia|]. destruct (a_map a i); congruence. }
    rewrite VI, CO. cbn [obind]. rewrite EA. cbn [obind]. rewrite run_collect. reflexivity.
  Qed.
  Lemma s_users_t st a sP tP i : smem cf st a sP tP -> all_placed a tP -> a_map a i <> None ->
    exists U, NoDup U /\ (forall x, In x U <-> tP x = Int i) /\
      s_each_iter cf st [c_any cf; c_any cf; i] = Val (map (link_of (s_data st)) U).
  Proof.
    intros R V EM. assert (EM' := EM). apply (sm_dom _ _ _ _ _ R) in EM as [IR _].
    destruct (s_it_walk _ _ _ _ _ i R) as (U & ND & IN & EA & CO); [lia|lia|].
    exists U. split; auto. split; auto.
    unfold s_each_iter, s_count, s_each, s_each3. rewrite (ok_ipart _ CF), (ok_spart _ CF), (ok_tpart _ CF).
    rewrite qget_0, qget_1, qget_2. cbn [obind].
    rewrite !(s_is_virtual_ok _ _ _ _ _ _ R V). cbn [obind]. rewrite N.eqb_refl.
    pose proof (sm_iend _ _ _ _ _ R). pose proof (ok_iend _ CF).
    destruct (N.eqb_spec i (c_any cf)); [lia|]. cbn [andb].
    assert (VI : isvirt a i = false).
    { unfold isvirt. destruct (N.eqb_spec i 0); [lia|]. destruct (a_map a i); congruence. }
    rewrite VI, CO. cbn [obind]. rewrite EA. cbn [obind]. rewrite run_collect. reflexivity.
  Qed.

  (** ** resolve_danglind_internal *)
  Definition exted (L : list N) (pl : N -> place) (x : N) : place := if in_dec N.eq_dec x L then Ext else pl x.

  Lemma s_move_s a i tP : forall l st sP, smem cf st a sP tP -> (forall k, In k l -> detachable a (l_index k)) ->
    NoDup (map l_index l) -> (forall k, In k l -> sP (l_index k) = Int i) ->
    exists st', s_for l (fun x st => let* st1 := s_detach_is tops st i x in s_attach_es tops st1 x) st = Val st' /\
      smem cf st' a (exted (map l_index l) sP) tP /\ same_mem st st'.
  Proof.
    induction l as [|k l IH]; intros st sP R AD ND HI; cbn [s_for].
    - exists st. split; auto. split; [|apply same_mem_refl]. eapply smem_pl; [| |exact R]; auto.
    - cbn [map] in ND. apply NoDup_cons_iff in ND as [NI ND].
      assert (K : sP (l_index k) = Int i) by (apply HI; now left).
      destruct (s_detach_is_ok cf tops TOK _ _ _ _ _ _ R (AD k (or_introl eq_refl)) K) as (st1 & E1 & R1 & M1).
      destruct (s_attach_es_ok cf tops TOK _ _ _ _ (l_index k) R1) as (st2 & E2 & R2 & M2).
      { apply (sp_ok_psrc a sP); [apply R|congruence]. }
      { apply upd_same. }
      rewrite E1. cbn [obind]. rewrite E2. cbn [obind].
      destruct (IH _ _ R2 (fun k' K' => AD k' (or_intror K')) ND) as (st3 & E3 & R3 & M3).
      { intros k' K'. assert (l_index k' <> l_index k) by (intros E; apply NI; rewrite <- E; now apply in_map).
        rewrite !upd_other by auto. apply HI. now right. }
      exists st3. split; auto. split; [|eapply same_mem_trans; [exact M1|eapply same_mem_trans; eauto]].
      eapply smem_pl; [| |exact R3]; auto. intros x. unfold exted. cbn [map].
      destruct (in_dec N.eq_dec x (l_index k :: map l_index l)) as [J|J];
        destruct (in_dec N.eq_dec x (map l_index l)) as [J'|J']; auto.
      + destruct J as [<-|J]; [|contradiction]. now rewrite upd_same.
      + exfalso. apply J. now right.
      + rewrite !upd_other; auto; intros ->; apply J; now left.
  Qed.
  Lemma s_move_t a i sP : forall l st tP, smem cf st a sP tP -> (forall k, In k l -> detachable a (l_index k)) ->
    NoDup (map l_index l) -> (forall k, In k l -> tP (l_index k) = Int i) ->
    exists st', s_for l (fun x st => let* st1 := s_detach_it tops st i x in s_attach_et tops st1 x) st = Val st' /\
      smem cf st' a sP (exted (map l_index l) tP) /\ same_mem st st'.
  Proof.
    induction l as [|k l IH]; intros st tP R AD ND HI; cbn [s_for].
    - exists st. split; auto. split; [|apply same_mem_refl]. eapply smem_pl; [| |exact R]; auto.
    - cbn [map] in ND. apply NoDup_cons_iff in ND as [NI ND].
      assert (K : tP (l_index k) = Int i) by (apply HI; now left).
      destruct (s_detach_it_ok cf tops TOK _ _ _ _ _ _ R (AD k (or_introl eq_refl)) K) as (st1 & E1 & R1 & M1).
      destruct (s_attach_et_ok cf tops TOK _ _ _ _ (l_index k) R1) as (st2 & E2 & R2 & M2).
      { apply (tp_ok_ptgt a tP); [apply R|congruence]. }
      { apply upd_same. }
      rewrite E1. cbn [obind]. rewrite E2. cbn [obind].
      destruct (IH _ _ R2 (fun k' K' => AD k' (or_intror K')) ND) as (st3 & E3 & R3 & M3).
      { intros k' K'. assert (l_index k' <> l_index k) by (intros E; apply NI; rewrite <- E; now apply in_map).
        rewrite !upd_other by auto. apply HI. now right. }
      exists st3. split; auto. split; [|eapply same_mem_trans; [exact M1|eapply same_mem_trans; eauto]].
      eapply smem_pl; [| |exact R3]; auto. intros x. unfold exted. cbn [map].
      destruct (in_dec N.eq_dec x (l_index k :: map l_index l)) as [J|J];
        destruct (in_dec N.eq_dec x (map l_index l)) as [J'|J']; auto.
      + destruct J as [<-|J]; [|contradiction]. now rewrite upd_same.
      + exfalso. apply J. now right.
      + rewrite !upd_other; auto; intros ->; apply J; now left.
  Qed.

  Lemma exted_moved i pl (d : N -> N * N) (f : link -> bool) U :
    (forall x, In x U <-> pl x = Int i) -> (forall x, In x U -> f (link_of d x) = negb (x =? i)) ->
    forall x, moved i pl x = exted (map l_index (filter f (map (link_of d) U))) pl x.
  Proof.
    intros IN F x. unfold moved, exted.
    assert (EQ : In x (map l_index (filter f (map (link_of d) U))) <-> In x U /\ x <> i).
    { rewrite in_map_iff. split.
      - intros (k & E & K). apply filter_In in K as [K P]. apply in_map_iff in K as (y & <- & K).
        cbn in E. subst y. split; auto. rewrite F in P by auto. destruct (N.eqb_spec x i); [discriminate|auto].
      - intros [K NE]. exists (link_of d x). split; [reflexivity|]. apply filter_In. split; [now apply in_map|].
        rewrite F by auto. destruct (N.eqb_spec x i); [contradiction|reflexivity]. }
    destruct (in_dec N.eq_dec x _) as [K|K].
    - apply EQ in K as [K NE]. apply IN in K. destruct (N.eqb_spec x i); [contradiction|].
      rewrite K, N.eqb_refl. reflexivity.
    - destruct (N.eqb_spec x i) as [->|NE]; [reflexivity|]. destruct (pl x) as [| |v] eqn:P; auto.
      destruct (N.eqb_spec v i) as [->|]; auto. exfalso. apply K, EQ. split; auto. now apply IN.
  Qed.

  Lemma moved_placed a i tP : all_placed a tP -> all_placed a (moved i tP).
  Proof.
    intros V x s t E. destruct (V x s t E) as [|K]; auto. right. unfold moved.
    destruct (x =? i); auto. destruct (tP x) as [| |v]; auto. destruct (v =? i); congruence.
  Qed.

  Lemma s_resolve_internal_gen st a sP tP i : smem cf st a sP tP -> all_placed a tP -> a_map a i <> None ->
    (forall x, x <> i -> sP x = Int i \/ tP x = Int i -> detachable a x) ->
    exists st', s_resolve_internal cf tops st i = Val st' /\ smem cf st' a (moved i sP) (moved i tP) /\ same_mem st st'.
  Proof.
    intros R V EM AD. unfold s_resolve_internal.
    destruct (s_users_s _ _ _ _ i R V EM) as (U1 & ND1 & IN1 & E1). rewrite E1. cbn [obind]. clear E1.
    set (f1 := fun k => negb (l_index k =? i)).
    assert (IFI : forall d (U : list N) (f : link -> bool) k, In k (filter f (map (link_of d) U)) ->
      In (l_index k) U /\ f k = true).
    { intros d U f k K. apply filter_In in K as [K P]. apply in_map_iff in K as (y & <- & K). auto. }
    destruct (s_move_s a i tP (filter f1 (map (link_of (s_data st)) U1)) st sP) as (st1 & E1 & R1 & M1); auto.
    { intros k K. apply IFI in K as [K P].
      apply IN1 in K. unfold f1 in P. destruct (N.eqb_spec (l_index k) i); [discriminate|]. apply AD; auto. }
    { now apply nodup_map_filter. }
    { intros k K. apply IFI in K as [K _]. now apply IN1. }
    rewrite E1. cbn [obind]. clear E1.
    apply (smem_pl cf _ _ _ _ (moved i sP) tP) in R1; auto.
    2:{ apply exted_moved; auto. }
    destruct (s_users_t _ _ _ _ i R1 V EM) as (U2 & ND2 & IN2 & E2). rewrite E2. cbn [obind]. clear E2.
    assert (FF : filter (fun k => negb (link_is_full k)) (filter (fun k => negb (l_index k =? i)) (map (link_of (s_data st1)) U2)) =
                 filter f1 (map (link_of (s_data st1)) U2)).
    { assert (GEN : forall L, (forall k, In k L -> l_target k = i) ->
        filter (fun k => negb (link_is_full k)) (filter (fun k => negb (l_index k =? i)) L) = filter f1 L).
      { induction L as [|k L IH]; intros HT; [reflexivity|]. cbn [filter]. unfold f1 at 1.
        assert (T : l_target k = i) by (apply HT; now left).
        destruct (N.eqb_spec (l_index k) i) as [EI|NE]; cbn [negb].
        - apply IH. intros; apply HT; now right.
        - cbn [filter]. unfold link_is_full at 1. rewrite T. destruct (N.eqb_spec (l_index k) i); [contradiction|].
          rewrite andb_false_r. cbn [negb]. f_equal. apply IH. intros; apply HT; now right. }
      apply GEN. intros k K. apply in_map_iff in K as (y & <- & K). apply IN2 in K.
      pose proof (sm_tp _ _ _ _ _ R1 y) as O. rewrite K in O. destruct O as ((s & O) & _).
      unfold link_of. rewrite (sm_data _ _ _ _ _ R1 _ _ O). reflexivity. }
    fold f1 in FF. rewrite FF.
    destruct (s_move_t a i (moved i sP) (filter f1 (map (link_of (s_data st1)) U2)) st1 tP) as (st2 & E2 & R2 & M2); auto.
    { intros k K. apply IFI in K as [K P].
      apply IN2 in K. unfold f1 in P. destruct (N.eqb_spec (l_index k) i); [discriminate|]. apply AD; auto. }
    { now apply nodup_map_filter. }
    { intros k K. apply IFI in K as [K _]. now apply IN2. }
    rewrite E2. exists st2. split; auto. split; [|eapply same_mem_trans; eauto].
    eapply smem_pl; [| |exact R2]; auto. apply exted_moved; auto.
  Qed.

  Lemma s_resolve_internal_ok st a sP tP i : smem cf st a sP tP -> all_placed a tP -> a_map a i <> None ->
    users_detachable a i ->
    exists st', s_resolve_internal cf tops st i = Val st' /\ smem cf st' a (moved i sP) (moved i tP) /\ same_mem st st'.
  Proof.
    intros R V EM AD. apply s_resolve_internal_gen; auto. intros x NE [K|K].
    - pose proof (sm_sp _ _ _ _ _ R x) as O. rewrite K in O. destruct O as ((t & O) & _). eapply AD; eauto.
    - pose proof (sm_tp _ _ _ _ _ R x) as O. rewrite K in O. destruct O as ((t & O) & _). eapply AD; eauto.
  Qed.

  (** resolve_danglind_external finds nobody to move. *)
  Lemma s_resolve_external_ok st a sP tP i : smem cf st a sP tP -> all_placed a tP -> a_map a i <> None ->
    (forall x, sP x <> Int i) -> (forall x, tP x <> Int i) -> s_resolve_external cf tops st i = Val st.
  Proof.
    intros R V EM NS NT. unfold s_resolve_external.
    destruct (s_users_s _ _ _ _ i R V EM) as (U1 & ND1 & IN1 & E1). rewrite E1. cbn [obind].
    assert (U1 = []) as ->. { destruct U1 as [|x U]; auto. exfalso. apply (NS x), IN1. now left. }
    cbn [map filter s_for obind].
    destruct (s_users_t _ _ _ _ i R V EM) as (U2 & ND2 & IN2 & E2). rewrite E2. cbn [obind].
    assert (U2 = []) as ->. { destruct U2 as [|x U]; auto. exfalso. apply (NT x), IN2. now left. }
    reflexivity.
  Qed.

  (** ** update_links *)
  Definition split_update_ok (a : astate) (i s t : N) : Prop :=
    detachable a i /\ (t = 0 -> s = 0) /\
    (s = i \/ t = i -> exists ot, a_map a i = Some (0, ot)).

  Lemma spl_update a i s t x : a_map a i <> None -> spl (a_update a i s t) x = upd (spl a) i (place_of a s) x.
  Proof.
    intros E. unfold spl. cbn [a_map a_update]. unfold upd. destruct (N.eqb_spec x i) as [->|].
    - now apply place_of_upd.
    - destruct (a_map a x) as [[s' t']|]; auto. now apply place_of_upd.
  Qed.
  Lemma tpl_update a i s t x : a_map a i <> None -> tpl (a_update a i s t) x = upd (tpl a) i (place_of a t) x.
  Proof.
    intros E. unfold tpl. cbn [a_map a_update]. unfold upd. destruct (N.eqb_spec x i) as [->|].
    - now apply place_of_upd.
    - destruct (a_map a x) as [[s' t']|]; auto. now apply place_of_upd.
  Qed.
  Lemma visible_update a i s t : visible a -> (t = 0 -> s = 0) -> visible (a_update a i s t).
  Proof.
    intros V T x s'. cbn [a_map a_update]. unfold upd. destruct (N.eqb_spec x i) as [->|]; [|apply V].
    intros [= -> ->]. auto.
  Qed.

  Theorem s_update_gen st a sP tP q ch i os ot s t : smem cf st a sP tP -> all_placed a tP ->
    qget q 0 = Val i -> qget ch 1 = Val s -> qget ch 2 = Val t ->
    a_map a i = Some (os, ot) -> detachable a i -> sP i = place_of a os -> tP i = place_of a ot ->
    exists st', smem cf st' (a_update a i s t) (upd sP i (put_in a i os s)) (upd tP i (put_in a i os t)) /\ same_mem st st' /\
      calls_once (fun H h x => s_update cf tops h q ch st x) st' (mkLink i os ot) (mkLink i s t).
  Proof.
    intros R V Q1 Q2 Q3 EM DET PS PT.
    destruct (s_relink_gen cf tops TOK _ _ _ _ i os ot s t R V EM DET PS PT) as (st' & E & R' & M).
    exists st'. split; auto. split; auto. intros H h x. unfold s_update. rewrite Q1, Q2, Q3. cbn [obind].
    rewrite (s_get_link_ok _ CF _ _ _ _ _ R V). cbn [obind]. rewrite EM. cbn [olink l_source l_target].
    rewrite E. cbn [obind]. destruct (h x (mkLink i os ot) (mkLink i s t)). reflexivity.
  Qed.

  Theorem s_update_ok st a q ch i os ot s t : sinv cf st a ->
    qget q 0 = Val i -> qget ch 1 = Val s -> qget ch 2 = Val t ->
    a_map a i = Some (os, ot) -> split_update_ok a i s t ->
    exists st', sinv cf st' (a_update a i s t) /\ same_mem st st' /\
      calls_once (fun H h x => s_update cf tops h q ch st x) st' (mkLink i os ot) (mkLink i s t).
  Proof.
    intros (R & W & VI) Q1 Q2 Q3 EM (DET & TS & SELF). pose proof (all_placed_tpl _ VI) as V.
    destruct (s_update_gen _ _ _ _ q ch i os ot s t R V Q1 Q2 Q3 EM DET) as (st' & R' & M & C).
    { unfold spl. now rewrite EM. }
    { unfold tpl. now rewrite EM. }
    assert (PUT : forall v, v = s \/ v = t -> put_in a i os v = place_of a v).
    { intros v K. unfold put_in. destruct (N.eqb_spec v i) as [E|]; auto.
      destruct SELF as (ot' & E'); [destruct K; subst; auto|]. rewrite EM in E'. injection E' as -> _. reflexivity. }
    exists st'. split; [|split; auto].
    split; [|split; [apply awf_update; auto; congruence|now apply visible_update]].
    rewrite (PUT s), (PUT t) in R' by auto.
    eapply smem_pl; [| |exact R']; intros x; [apply spl_update|apply tpl_update]; congruence.
  Qed.

  Theorem s_update_none st a q ch i s t : sinv cf st a ->
    qget q 0 = Val i -> qget ch 1 = Val s -> qget ch 2 = Val t -> a_map a i = None ->
    fails_with (fun H h x => s_update cf tops h q ch st x) st (NotExists i).
  Proof.
    intros (R & W & VI) Q1 Q2 Q3 EM H h x. unfold s_update. rewrite Q1, Q2, Q3. cbn [obind].
    rewrite (s_get_link_ok _ CF _ _ _ _ _ R (all_placed_tpl _ VI)). cbn [obind]. rewrite EM. reflexivity.
  Qed.

  (** ** delete_links *)
  Definition split_delete_ok (a : astate) (i : N) : Prop :=
    detachable a i /\ users_detachable a i.
  Lemma split_delete_distinct a i : adistinct a -> split_delete_ok a i.
  Proof. intros D. split; [|intros x s t _ _ _]; now apply adistinct_detachable. Qed.

  Lemma a_delete_map a i x : a_map (a_delete a i) x = upd (a_map a) i None x.
  Proof. unfold a_delete. destruct (i <? a_top a); reflexivity. Qed.

  Lemma spl_delete a i x : a_map a i <> None -> i <> 0 ->
    spl (a_delete a i) x = upd (moved i (spl a)) i Out x.
  Proof.
    intros E I0. unfold spl at 1. rewrite a_delete_map. unfold upd at 1 2. unfold moved.
    destruct (N.eqb_spec x i) as [->|NE]; auto. unfold spl.
    destruct (a_map a x) as [[s t]|]; auto. unfold place_of. destruct (N.eqb_spec s 0) as [->|S0]; auto.
    rewrite a_delete_map. unfold upd. destruct (N.eqb_spec s i) as [->|NS].
    - destruct (a_map a i); [|congruence]. now rewrite N.eqb_refl.
    - destruct (a_map a s); auto. destruct (N.eqb_spec s i); [contradiction|auto].
  Qed.
  Lemma tpl_delete a i x : a_map a i <> None -> i <> 0 ->
    tpl (a_delete a i) x = upd (moved i (tpl a)) i Out x.
  Proof.
    intros E I0. unfold tpl at 1. rewrite a_delete_map. unfold upd at 1 2. unfold moved.
    destruct (N.eqb_spec x i) as [->|NE]; auto. unfold tpl.
    destruct (a_map a x) as [[s t]|]; auto. unfold place_of. destruct (N.eqb_spec t 0) as [->|S0]; auto.
    rewrite a_delete_map. unfold upd. destruct (N.eqb_spec t i) as [->|NS].
    - destruct (a_map a i); [|congruence]. now rewrite N.eqb_refl.
    - destruct (a_map a t); auto. destruct (N.eqb_spec t i); [contradiction|auto].
  Qed.

  Theorem s_delete_none st a q i : sinv cf st a -> qget q 0 = Val i -> a_map a i = None ->
    fails_with (fun H h x => s_delete cf tops lops h q st x) st (NotExists i).
  Proof.
    intros (R & W & VI) Q1 EM H h x. unfold s_delete. rewrite Q1. cbn [obind].
    rewrite (s_get_link_ok _ CF _ _ _ _ _ R (all_placed_tpl _ VI)). cbn [obind]. rewrite EM. reflexivity.
  Qed.

  Theorem s_delete_gen st a pS pT q i os ot : smem cf st a pS pT -> awf a -> all_placed a pT -> qget q 0 = Val i ->
    a_map a i = Some (os, ot) -> detachable a i -> pS i = place_of a os -> pT i = place_of a ot ->
    (forall x, x <> i -> pS x = Int i \/ pT x = Int i -> detachable a x) ->
    exists st', smem cf st' (a_delete a i) (upd (moved i pS) i Out) (upd (moved i pT) i Out) /\ same_mem st st' /\
      calls_once (fun H h x => s_delete cf tops lops h q st x) st' (mkLink i os ot) nothing.
  Proof.
    intros R W V Q1 EM DEL PS PT AD.
    pose proof (awf_some _ _ _ W EM) as [IR NF].
    assert (I0 : i <> 0) by lia. assert (EN : a_map a i <> None) by congruence.
    destruct (s_resolve_internal_gen _ _ _ _ i R V EN AD) as (st0 & E0 & R0 & M0).
    pose proof (moved_placed _ i _ V) as V0.
    destruct (s_relink_ok cf tops TOK _ _ _ _ i os ot 0 0 R0 V0 EM) as (st1 & E1 & R1 & M1); auto.
    { unfold moved. now rewrite N.eqb_refl. }
    { unfold moved. now rewrite N.eqb_refl. }
    { intros [K|K]; congruence. }
    change (place_of a 0) with Out in R1.
    set (sP := upd (moved i pS) i Out) in *. set (tP := upd (moved i pT) i Out) in *.
    assert (NS : forall x, sP x <> Int i).
    { intros x. unfold sP, upd, moved. destruct (x =? i); [discriminate|].
      destruct (pS x) as [| |v]; try discriminate. destruct (N.eqb_spec v i); congruence. }
    assert (NT : forall x, tP x <> Int i).
    { intros x. unfold tP, upd, moved. destruct (x =? i); [discriminate|].
      destruct (pT x) as [| |v]; try discriminate. destruct (N.eqb_spec v i); congruence. }
    assert (MD : forall j, upd (upd (a_map a) i (Some (0, 0))) i None j = upd (a_map a) i None j).
    { intros j. unfold upd. destruct (j =? i); reflexivity. }
    assert (RED : forall st3,
      match i ?= a_top a with
      | Lt => s_unused_attach lops st1 i
      | Eq => let* a1 := csub (a_top a) 1 in s_trim lops (s_fuel st1) (s_set_alloc st1 a1)
      | Gt => Panic
      end = Val st3 ->
      calls_once (fun H h x => s_delete cf tops lops h q st x) st3 (mkLink i os ot) nothing).
    { intros st3 E3 H h x. unfold s_delete. rewrite Q1. cbn [obind].
      rewrite (s_get_link_ok _ CF _ _ _ _ _ R V). cbn [obind]. rewrite EM. cbn [olink]. rewrite E0.
      cbn [obind]. unfold s_update. rewrite qget_0, qget_1, qget_2. cbn [obind].
      rewrite (s_get_link_ok _ CF _ _ _ _ _ R0 V0). cbn [obind]. rewrite EM. cbn [olink l_source l_target].
      rewrite E1. cbn [obind].
      rewrite (s_header_ok _ _ _ _ _ R1). cbn [obind].
      rewrite (sm_alloc _ _ _ _ _ R1). cbn [a_top a_update]. rewrite E3. cbn [obind].
      destruct (h x (mkLink i os ot) nothing); reflexivity. }
    destruct (N.compare_spec i (a_top a)) as [Ei|Li|Gi]; [| |lia].
    - rewrite csub_ok in RED by lia. cbn [obind] in RED.
      assert (R2 : smem cf (s_set_alloc st1 (a_top a - 1))
                     (mkA (a_top a - 1) (a_free a) (upd (upd (a_map a) i (Some (0, 0))) i None)) sP tP).
      { pose proof (s_lower_ok cf _ _ _ _ R1) as R2. cbn [a_top a_update a_free a_map] in R2. rewrite <- Ei in *.
        apply R2; auto; [lia|]. apply upd_same. }
      destruct (s_trim_ok cf lops LOK (N.to_nat (a_top a - 1)) (s_fuel st1) _ _ _ _ R2) as (st3 & E3 & R3 & M3).
      { intros x s t. cbn [a_map]. rewrite MD. unfold upd. destruct (N.eqb_spec x i) as [->|NE]; [discriminate|].
        intros K. destruct (V0 _ _ _ K) as [|K']; auto. right. unfold tP. now rewrite upd_other. }
      { reflexivity. }
      { unfold s_fuel. rewrite (sm_alloc _ _ _ _ _ R1). cbn [a_top a_update]. lia. }
      exists st3. split; [|split; [|now apply RED]].
      2:{ eapply same_mem_trans; [exact M0|]. eapply same_mem_trans; [exact M1|exact M3]. }
      unfold a_delete. destruct (N.ltb_spec i (a_top a)); [lia|].
      cbn [a_top a_free a_map] in R3.
      assert (ET : top_of (upd (a_map a) i None) (N.to_nat (a_top a)) =
                   top_of (upd (upd (a_map a) i (Some (0, 0))) i None) (N.to_nat (a_top a - 1))).
      { replace (N.to_nat (a_top a)) with (S (N.to_nat (a_top a - 1))) by lia. cbn [top_of].
        replace (N.of_nat (S (N.to_nat (a_top a - 1)))) with i by lia. rewrite upd_same.
        apply top_of_ext. intros j _. symmetry. apply MD. }
      cbv zeta. rewrite ET. eapply smem_ext; [| | |exact R3]; cbn [a_top a_free a_map]; auto.
    - destruct (s_unused_attach_ok cf lops LOK _ _ _ _ i R1) as (st3 & E3 & R3 & M3); auto.
      { cbn [a_map a_update]. apply upd_same. }
      exists st3. split; [|split; [|now apply RED]].
      2:{ eapply same_mem_trans; [exact M0|]. eapply same_mem_trans; [exact M1|exact M3]. }
      unfold a_delete. destruct (N.ltb_spec i (a_top a)); [|lia].
      eapply smem_ext; [| | |exact R3]; cbn [a_top a_free a_map a_update]; auto.
  Qed.

  Theorem s_delete_ok st a q i os ot : sinv cf st a -> qget q 0 = Val i ->
    a_map a i = Some (os, ot) -> split_delete_ok a i ->
    exists st', sinv cf st' (a_delete a i) /\ same_mem st st' /\
      calls_once (fun H h x => s_delete cf tops lops h q st x) st' (mkLink i os ot) nothing.
  Proof.
    intros (R & W & VI) Q1 EM [DEL AD]. pose proof (all_placed_tpl _ VI) as V.
    pose proof (awf_some _ _ _ W EM) as [IR NF]. assert (EN : a_map a i <> None) by congruence.
    destruct (s_delete_gen _ _ _ _ q i os ot R W V Q1 EM DEL) as (st' & R' & M & C).
    { unfold spl. now rewrite EM. }
    { unfold tpl. now rewrite EM. }
    { intros x NE [K|K].
      - pose proof (sm_sp _ _ _ _ _ R x) as O. rewrite K in O. destruct O as ((t & O) & _). eapply AD; eauto.
      - pose proof (sm_tp _ _ _ _ _ R x) as O. rewrite K in O. destruct O as ((t & O) & _). eapply AD; eauto. }
    exists st'. split; [|split; auto]. split; [|split].
    - eapply smem_pl; [| |exact R']; intros x; [apply spl_delete|apply tpl_delete]; auto; lia.
    - apply awf_delete; auto.
    - intros x s. rewrite a_delete_map. unfold upd. destruct (x =? i); [discriminate|apply VI].
  Qed.

  (** ** create_links *)
  Lemma sp_ok_create a sP : awf a -> sp_ok a sP -> sp_ok (a_create a) sP.
  Proof.
    intros W O x. pose proof (O x) as K.
    assert (C : forall y, a_map a y <> None -> a_map (a_create a) y = a_map a y).
    { intros y Y. assert (NY : y <> a_next a).
      { intros ->. apply Y. unfold a_next. destruct (a_free a) as [|z fl] eqn:EF.
        - apply awf_none; auto. left. lia.
        - apply awf_none; auto. right. rewrite EF. now left. }
      unfold a_create, a_next in *. destruct (a_free a); cbn [a_map]; now apply upd_other. }
    destruct (sP x) as [| |v]; auto.
    - destruct K as (s & t & K1 & K2). exists s, t. rewrite C by congruence. auto.
    - destruct K as ((t & K1) & K2 & K3). rewrite !C by congruence. eauto.
  Qed.
  Lemma tp_ok_create a tP : awf a -> tp_ok a tP -> tp_ok (a_create a) tP.
  Proof.
    intros W O x. pose proof (O x) as K.
    assert (C : forall y, a_map a y <> None -> a_map (a_create a) y = a_map a y).
    { intros y Y. assert (NY : y <> a_next a).
      { intros ->. apply Y. unfold a_next. destruct (a_free a) as [|z fl] eqn:EF.
        - apply awf_none; auto. left. lia.
        - apply awf_none; auto. right. rewrite EF. now left. }
      unfold a_create, a_next in *. destruct (a_free a); cbn [a_map]; now apply upd_other. }
    destruct (tP x) as [| |v]; auto.
    - destruct K as (s & t & K1 & K2). exists s, t. rewrite C by congruence. auto.
    - destruct K as ((t & K1) & K2 & K3). rewrite !C by congruence. eauto.
  Qed.

  Lemma a_next_none a : awf a -> a_map a (a_next a) = None /\ a_next a <> 0.
  Proof.
    intros W. unfold a_next. destruct (a_free a) as [|z fl] eqn:EF.
    - split; [|lia]. apply awf_none; auto. left. lia.
    - assert (K : In z (a_free a)) by (rewrite EF; now left). split.
      + apply awf_none; auto.
      + apply (wf_free _ W) in K. lia.
  Qed.
  Lemma a_create_map a x : a_map (a_create a) x = upd (a_map a) (a_next a) (Some (0, 0)) x.
  Proof. unfold a_create, a_next. destruct (a_free a); reflexivity. Qed.

  Lemma place_of_create a v : v <> a_next a -> place_of (a_create a) v = place_of a v.
  Proof.
    intros NE. unfold place_of. rewrite a_create_map, upd_other by auto. reflexivity.
  Qed.
  Lemma spl_create a x : awf a -> unreferenced a (a_next a) -> spl (a_create a) x = spl a x.
  Proof.
    intros W U. destruct (a_next_none _ W) as [NN _]. unfold spl. rewrite a_create_map. unfold upd.
    destruct (N.eqb_spec x (a_next a)) as [->|].
    - rewrite NN. reflexivity.
    - destruct (a_map a x) as [[s t]|] eqn:E; auto. apply place_of_create. destruct (U _ _ _ E). auto.
  Qed.
  Lemma tpl_create a x : awf a -> unreferenced a (a_next a) -> tpl (a_create a) x = tpl a x.
  Proof.
    intros W U. destruct (a_next_none _ W) as [NN _]. unfold tpl. rewrite a_create_map. unfold upd.
    destruct (N.eqb_spec x (a_next a)) as [->|].
    - rewrite NN. reflexivity.
    - destruct (a_map a x) as [[s t]|] eqn:E; auto. apply place_of_create. destruct (U _ _ _ E). auto.
  Qed.
  Lemma visible_create a : visible a -> visible (a_create a).
  Proof.
    intros V x s. rewrite a_create_map. unfold upd. destruct (x =? a_next a); [|apply V]. congruence.
  Qed.
  Lemma all_placed_create a tP : all_placed a tP -> all_placed (a_create a) tP.
  Proof.
    intros V x s t. rewrite a_create_map. unfold upd. destruct (x =? a_next a); [|apply V].
    intros [= <- <-]. now left.
  Qed.

  Lemma sinv_create st a : awf a -> visible a -> unreferenced a (a_next a) ->
    smem cf st (a_create a) (spl a) (tpl a) -> sinv cf st (a_create a).
  Proof.
    intros W V U R. split; [|split; [now apply awf_create|now apply visible_create]].
    eapply smem_pl; [| |exact R]; intros x; [now apply spl_create|now apply tpl_create].
  Qed.

  (** The header's [allocated] field one up. *)
  Lemma s_raise_ok st a sP tP : smem cf st a sP tP -> awf a -> a_free a = [] ->
    a_top a < c_iend cf -> a_top a + 1 < s_ilen st ->
    smem cf (s_set_alloc st (a_top a + 1)) (a_create a) sP tP.
  Proof.
    intros R W EF TI TL.
    assert (TA : a_top (a_create a) = a_top a + 1) by (unfold a_create; now rewrite EF).
    assert (FA : a_free (a_create a) = []) by (unfold a_create; now rewrite EF).
    assert (NX : a_next a = a_top a + 1) by (unfold a_next; now rewrite EF).
    destruct (s_alloc_frame st (a_top a + 1)) as (F1 & F2 & F3 & F4 & F5 & F6).
    constructor; rewrite ?TA, ?FA; try exact (sm_data0 _ _ _ _ _ R); try apply R; auto.
    - lia.
    - pose proof (sm_list _ _ _ _ _ R) as LR. rewrite EF in LR. exact LR.
    - intros i. rewrite (wf_dom _ (awf_create _ W)), TA, FA. reflexivity.
    - intros i [].
    - intros i p. rewrite F3, a_create_map, NX. unfold upd. destruct (N.eqb_spec i (a_top a + 1)) as [->|].
      + intros [= <-]. apply (sm_beyond _ _ _ _ _ R). lia.
      + apply R.
    - eapply forest_ext; [| | | |apply (sm_src _ _ _ _ _ R)]; auto.
    - apply sp_ok_create; auto. apply R.
    - apply tp_ok_create; auto. apply R.
    - intros i K. rewrite F3. apply (sm_beyond _ _ _ _ _ R). lia.
  Qed.

  (** Both memories grown; the cells stay. *)
  Definition s_grown (st : sst) (d i : N) (orc : nat -> N -> N -> grown) : sst :=
    s_set_reserved (mkS d d i orc (s_data st) (s_rs st) (s_is st) (s_rt st) (s_it st)) i.

  Lemma s_grown_ok st a sP tP d i orc : smem cf st a sP tP -> s_ilen st <= i -> i <= d ->
    smem cf (s_grown st d i orc) a sP tP.
  Proof.
    intros R I1 I2. pose proof (sm_len _ _ _ _ _ R). pose proof (sm_res1 _ _ _ _ _ R).
    unfold s_grown.
    constructor; try exact (sm_data0 _ _ _ _ _ R); try solve [apply R]; cbn [s_set_reserved s_set_src s_dcap s_dlen s_ilen]; auto.
    - lia.
    - unfold sh_reserved, s_set_reserved. cbn [s_is s_set_src]. rewrite upd_same. cbn [nl s_ilen s_set_reserved s_set_src]. lia.
    - unfold sh_reserved, s_set_reserved. cbn [s_is s_set_src]. rewrite upd_same. cbn [nl s_ilen s_set_reserved s_set_src]. lia.
    - eapply forest_ext; [| | | |apply (sm_src _ _ _ _ _ R)]; auto.
      intros x X. unfold s_set_reserved. cbn [s_is s_set_src]. now apply upd_other.
  Qed.

  (** The same memory with other capacity of the data block and other future allocations. *)
  Definition s_remem (st : sst) (dcap : N) (orc : nat -> N -> N -> grown) : sst :=
    mkS dcap (s_dlen st) (s_ilen st) orc (s_data st) (s_rs st) (s_is st) (s_rt st) (s_it st).
  Definition next_orc (st : sst) : nat -> N -> N -> grown := fun k => s_orc st (S k).

  Lemma smem_orc st a sP tP orc : smem cf st a sP tP -> smem cf (s_remem st (s_dcap st) orc) a sP tP.
  Proof.
    intros R. constructor; try exact (sm_data0 _ _ _ _ _ R); try apply R.
  Qed.

  (** create_links on a memory whose data block may be stale *)
  Lemma s_create_grow st a sP tP dcap orc q : smem cf st a sP tP -> awf a -> all_placed a tP ->
    a_free a = [] -> a_top a < c_iend cf -> sh_reserved st - 1 <= a_top a ->
    s_ilen st <= dcap -> orc 0%nat (dcap + c_step cf) (s_ilen st + c_step cf) = Grown ->
    s_ilen st + c_step cf <= c_tmax cf ->
    let st1 := s_set_alloc (s_grown st (dcap + c_step cf) (s_ilen st + c_step cf) (fun k => orc (S k))) (a_top a + 1) in
    smem cf st1 (a_create a) sP tP /\
    calls_once (fun H h x => s_create cf tops lops h q (s_remem st dcap orc) x) st1 nothing (mkLink (a_next a) 0 0).
  Proof.
    intros R W V EF TI GR DC EO TM st1.
    assert (NX : a_next a = a_top a + 1) by (unfold a_next; now rewrite EF).
    pose proof (ok_step _ CF). pose proof (sm_len _ _ _ _ _ R). pose proof (sm_res1 _ _ _ _ _ R).
    pose proof (ok_iend _ CF). pose proof (ok_any _ CF).
    assert (R1 : smem cf (s_grown st (dcap + c_step cf) (s_ilen st + c_step cf) (fun k => orc (S k))) a sP tP).
    { apply s_grown_ok; auto; lia. }
    assert (R2 : smem cf st1 (a_create a) sP tP).
    { apply s_raise_ok; auto. unfold s_grown, s_set_reserved. cbn [s_ilen s_set_src]. lia. }
    split; auto. intros Hh h x. unfold s_create. unfold s_header at 1. cbn [s_ilen s_remem].
    destruct (N.ltb_spec 0 (s_ilen st)); [|lia]. cbn [obind].
    change (sh_first (s_remem st dcap orc)) with (sh_first st).
    change (sh_alloc (s_remem st dcap orc)) with (sh_alloc st).
    rewrite (sm_first _ _ _ _ _ R), EF, (ok_null _ CF), (sm_alloc _ _ _ _ _ R). cbn [hd N.eqb].
    destruct (N.leb_spec (c_iend cf) (a_top a)); [lia|].
    unfold s_grow. change (sh_reserved (s_remem st dcap orc)) with (sh_reserved st).
    change (sh_alloc (s_remem st dcap orc)) with (sh_alloc st). rewrite (sm_alloc _ _ _ _ _ R).
    rewrite csub_ok by lia. cbn [obind]. destruct (N.leb_spec (sh_reserved st - 1) (a_top a)); [|lia].
    unfold s_alloc_mem. cbn [s_remem s_orc s_dcap s_ilen]. rewrite EO. cbn [s_data s_rs s_is s_rt s_it].
    unfold s_header. cbn [s_ilen]. destruct (N.ltb_spec 0 (s_ilen st + c_step cf)); [|lia]. cbn [obind].
    rewrite ctry_ok by lia. cbn [obind].
    change (s_set_reserved _ _) with (s_grown st (dcap + c_step cf) (s_ilen st + c_step cf) (fun k => orc (S k))).
    rewrite (sm_alloc _ _ _ _ _ R1). rewrite cadd_ok by lia. cbn [obind]. fold st1.
    destruct (a_next_none _ W) as [NN _]. rewrite <- NX.
    rewrite (s_resolve_external_ok st1 (a_create a) sP tP); auto.
    - cbn [obind]. destruct (h x nothing (mkLink (a_next a) 0 0)); reflexivity.
    - now apply all_placed_create.
    - rewrite a_create_map, upd_same. discriminate.
    - intros y K. pose proof (sm_sp _ _ _ _ _ R y) as O. rewrite K in O. tauto.
    - intros y K. pose proof (sm_tp _ _ _ _ _ R y) as O. rewrite K in O. tauto.
  Qed.

  Theorem s_create_full_gen st a sP tP q : smem cf st a sP tP -> awf a -> all_placed a tP -> a_full cf a ->
    fails_with (fun H h x => s_create cf tops lops h q st x) st (LimitReached (c_iend cf)).
  Proof.
    intros R W V [EF FU] H h x. unfold s_create. rewrite (s_header_ok _ _ _ _ _ R). cbn [obind].
    rewrite (sm_first _ _ _ _ _ R), EF, (ok_null _ CF), (sm_alloc _ _ _ _ _ R). cbn [hd N.eqb].
    destruct (N.leb_spec (c_iend cf) (a_top a)); [reflexivity|lia].
  Qed.
  Theorem s_create_full st a q : sinv cf st a -> a_full cf a ->
    fails_with (fun H h x => s_create cf tops lops h q st x) st (LimitReached (c_iend cf)).
  Proof. intros (R & W & VI). apply (s_create_full_gen _ _ _ _ q R W (all_placed_tpl _ VI)). Qed.

  (** Whether create_links has to grow the memories. *)
  Definition s_must_grow (st : sst) (a : astate) : Prop :=
    a_free a = [] /\ a_top a < c_iend cf /\ sh_reserved st - 1 <= a_top a.

  Theorem s_create_nodata_gen st a sP tP q : smem cf st a sP tP -> awf a -> all_placed a tP -> s_must_grow st a ->
    s_orc st 0%nat (s_dcap st + c_step cf) (s_ilen st + c_step cf) = NoData ->
    smem cf (s_remem st (s_dcap st) (next_orc st)) a sP tP /\
    fails_with (fun H h x => s_create cf tops lops h q st x) (s_remem st (s_dcap st) (next_orc st)) AllocFailed.
  Proof.
    intros R W V (EF & TI & GR) EO. split; [now apply smem_orc|].
    pose proof (sm_res1 _ _ _ _ _ R).
    intros Hh h x. unfold s_create. rewrite (s_header_ok _ _ _ _ _ R). cbn [obind].
    rewrite (sm_first _ _ _ _ _ R), EF, (ok_null _ CF), (sm_alloc _ _ _ _ _ R). cbn [hd N.eqb].
    destruct (N.leb_spec (c_iend cf) (a_top a)); [lia|]. unfold s_grow. rewrite (sm_alloc _ _ _ _ _ R).
    rewrite csub_ok by lia. cbn [obind]. destruct (N.leb_spec (sh_reserved st - 1) (a_top a)); [|lia].
    unfold s_alloc_mem. rewrite EO. reflexivity.
  Qed.
  Theorem s_create_nodata st a q : sinv cf st a -> s_must_grow st a ->
    s_orc st 0%nat (s_dcap st + c_step cf) (s_ilen st + c_step cf) = NoData ->
    sinv cf (s_remem st (s_dcap st) (next_orc st)) a /\
    fails_with (fun H h x => s_create cf tops lops h q st x) (s_remem st (s_dcap st) (next_orc st)) AllocFailed.
  Proof.
    intros (R & W & VI) G EO. destruct (s_create_nodata_gen _ _ _ _ q R W (all_placed_tpl _ VI) G EO) as [R' F].
    split; auto. split; auto.
  Qed.

  Theorem s_create_noindex_gen st a sP tP q : smem cf st a sP tP -> awf a -> all_placed a tP -> s_must_grow st a ->
    s_orc st 0%nat (s_dcap st + c_step cf) (s_ilen st + c_step cf) = NoIndex ->
    fails_with (fun H h x => s_create cf tops lops h q st x)
      (s_remem st (s_dcap st + c_step cf) (next_orc st)) AllocFailed.
  Proof.
    intros R W V (EF & TI & GR) EO. pose proof (sm_res1 _ _ _ _ _ R).
    intros Hh h x. unfold s_create. rewrite (s_header_ok _ _ _ _ _ R). cbn [obind].
    rewrite (sm_first _ _ _ _ _ R), EF, (ok_null _ CF), (sm_alloc _ _ _ _ _ R). cbn [hd N.eqb].
    destruct (N.leb_spec (c_iend cf) (a_top a)); [lia|]. unfold s_grow. rewrite (sm_alloc _ _ _ _ _ R).
    rewrite csub_ok by lia. cbn [obind]. destruct (N.leb_spec (sh_reserved st - 1) (a_top a)); [|lia].
    unfold s_alloc_mem. rewrite EO. reflexivity.
  Qed.
  Theorem s_create_noindex st a q : sinv cf st a -> s_must_grow st a ->
    s_orc st 0%nat (s_dcap st + c_step cf) (s_ilen st + c_step cf) = NoIndex ->
    fails_with (fun H h x => s_create cf tops lops h q st x)
      (s_remem st (s_dcap st + c_step cf) (next_orc st)) AllocFailed.
  Proof. intros (R & W & VI). apply (s_create_noindex_gen _ _ _ _ q R W (all_placed_tpl _ VI)). Qed.

  Theorem s_create_panic_gen st a sP tP q : smem cf st a sP tP -> awf a -> all_placed a tP -> s_must_grow st a ->
    s_orc st 0%nat (s_dcap st + c_step cf) (s_ilen st + c_step cf) = Grown ->
    c_tmax cf < s_ilen st + c_step cf ->
    forall H (h : whandler H) x, s_create cf tops lops h q st x = Panic.
  Proof.
    intros R W V (EF & TI & GR) EO TM Hh h x. pose proof (sm_res1 _ _ _ _ _ R). pose proof (ok_step _ CF).
    unfold s_create. rewrite (s_header_ok _ _ _ _ _ R). cbn [obind].
    rewrite (sm_first _ _ _ _ _ R), EF, (ok_null _ CF), (sm_alloc _ _ _ _ _ R). cbn [hd N.eqb].
    destruct (N.leb_spec (c_iend cf) (a_top a)); [lia|]. unfold s_grow. rewrite (sm_alloc _ _ _ _ _ R).
    rewrite csub_ok by lia. cbn [obind]. destruct (N.leb_spec (sh_reserved st - 1) (a_top a)); [|lia].
    unfold s_alloc_mem. rewrite EO. unfold s_header. cbn [s_ilen].
    destruct (N.ltb_spec 0 (s_ilen st + c_step cf)); [|lia]. cbn [obind].
    unfold ctry. destruct (N.leb_spec (s_ilen st + c_step cf) (c_tmax cf)); [lia|reflexivity].
  Qed.
  Theorem s_create_panic st a q : sinv cf st a -> s_must_grow st a ->
    s_orc st 0%nat (s_dcap st + c_step cf) (s_ilen st + c_step cf) = Grown ->
    c_tmax cf < s_ilen st + c_step cf ->
    forall H (h : whandler H) x, s_create cf tops lops h q st x = Panic.
  Proof. intros (R & W & VI). apply (s_create_panic_gen _ _ _ _ q R W (all_placed_tpl _ VI)). Qed.

  (** Success: the trees stay where they were, even if old links refer to the new index. *)
  Theorem s_create_succ_gen st a sP tP q : smem cf st a sP tP -> awf a -> all_placed a tP -> ~ a_full cf a ->
    (s_must_grow st a -> s_orc st 0%nat (s_dcap st + c_step cf) (s_ilen st + c_step cf) = Grown /\
       s_ilen st + c_step cf <= c_tmax cf) ->
    exists st', smem cf st' (a_create a) sP tP /\ (s_orc st' = s_orc st \/ s_orc st' = next_orc st) /\
      calls_once (fun H h x => s_create cf tops lops h q st x) st' nothing (mkLink (a_next a) 0 0).
  Proof.
    intros R W V NF G.
    destruct (a_next_none _ W) as [NN _].
    pose proof (ok_iend _ CF). pose proof (ok_any _ CF). pose proof (sm_dlen _ _ _ _ _ R) as DL.
    pose proof (sm_res1 _ _ _ _ _ R). pose proof (sm_res2 _ _ _ _ _ R). pose proof (sm_dcap _ _ _ _ _ R) as DC.
    assert (REX : forall st1, smem cf st1 (a_create a) sP tP ->
      s_resolve_external cf tops st1 (a_next a) = Val st1).
    { intros st1 R1. apply (s_resolve_external_ok st1 (a_create a) sP tP); auto.
      - now apply all_placed_create.
      - rewrite a_create_map, upd_same. discriminate.
      - intros y K. pose proof (sm_sp _ _ _ _ _ R y) as O. rewrite K in O. tauto.
      - intros y K. pose proof (sm_tp _ _ _ _ _ R y) as O. rewrite K in O. tauto. }
    destruct (a_free a) as [|y fl] eqn:EF.
    - assert (TI : a_top a < c_iend cf).
      { destruct (N.lt_ge_cases (a_top a) (c_iend cf)); auto. exfalso. apply NF. now split. }
      assert (NX : a_next a = a_top a + 1) by (unfold a_next; now rewrite EF).
      destruct (N.le_gt_cases (sh_reserved st - 1) (a_top a)) as [GR|GR].
      + destruct G as [EO TM]; [repeat split; auto|].
        destruct (s_create_grow st a sP tP (s_dcap st) (s_orc st) q) as [R1 C1]; auto; [lia|].
        assert (EQ : s_remem st (s_dcap st) (s_orc st) = st) by (destruct st; reflexivity). rewrite EQ in C1.
        eexists. split; [exact R1|]. split; [now right|]. exact C1.
      + exists (s_set_alloc st (a_top a + 1)).
        assert (R1 : smem cf (s_set_alloc st (a_top a + 1)) (a_create a) sP tP).
        { apply s_raise_ok; auto. lia. }
        split; auto. split; [now left|]. intros Hh h x.
        unfold s_create. rewrite (s_header_ok _ _ _ _ _ R). cbn [obind].
        rewrite (sm_first _ _ _ _ _ R), EF, (ok_null _ CF), (sm_alloc _ _ _ _ _ R). cbn [hd N.eqb].
        destruct (N.leb_spec (c_iend cf) (a_top a)); [lia|]. unfold s_grow. rewrite (sm_alloc _ _ _ _ _ R).
        rewrite csub_ok by lia. cbn [obind]. destruct (N.leb_spec (sh_reserved st - 1) (a_top a)); [lia|].
        cbn [obind]. rewrite (sm_alloc _ _ _ _ _ R). rewrite cadd_ok by lia. cbn [obind].
        rewrite <- NX in *. rewrite REX by auto. cbn [obind].
        destruct (h x nothing (mkLink (a_next a) 0 0)); reflexivity.
    - assert (NX : a_next a = y) by (unfold a_next; now rewrite EF).
      assert (HI : In y (a_free a)) by (rewrite EF; now left).
      assert (Y0 : y <> 0) by (apply (sm_free _ _ _ _ _ R) in HI; lia).
      destruct (s_unused_detach_ok cf lops LOK _ _ _ _ y R HI) as (st1 & E1 & R1 & M1).
      exists st1.
      assert (R2 : smem cf st1 (a_create a) sP tP).
      { pose proof (wf_nodup _ W) as ND. rewrite EF in ND. inversion ND; subst.
        eapply smem_ext; [| | |exact R1]; unfold a_create; rewrite EF; cbn [a_top a_free a_map]; auto.
        symmetry. now apply lremove_head. }
      split; auto. split; [left; apply M1|]. intros Hh h x.
      unfold s_create. rewrite (s_header_ok _ _ _ _ _ R). cbn [obind].
      rewrite (sm_first _ _ _ _ _ R), EF, (ok_null _ CF). cbn [hd].
      destruct (N.eqb_spec y 0); [contradiction|]. rewrite E1. cbn [obind].
      rewrite <- NX in *. rewrite REX by auto. cbn [obind].
      destruct (h x nothing (mkLink (a_next a) 0 0)); reflexivity.
  Qed.
  Theorem s_create_succ st a q : sinv cf st a -> ~ a_full cf a ->
    (s_must_grow st a -> s_orc st 0%nat (s_dcap st + c_step cf) (s_ilen st + c_step cf) = Grown /\
       s_ilen st + c_step cf <= c_tmax cf) ->
    exists st', smem cf st' (a_create a) (spl a) (tpl a) /\ (s_orc st' = s_orc st \/ s_orc st' = next_orc st) /\
      calls_once (fun H h x => s_create cf tops lops h q st x) st' nothing (mkLink (a_next a) 0 0).
  Proof. intros (R & W & VI). apply (s_create_succ_gen _ _ _ _ q R W (all_placed_tpl _ VI)). Qed.

  (** ** Opening *)
  Definition s_same_cells (m st : sst) : Prop :=
    (forall j, s_data m j = s_data st j) /\ (forall j, s_rs m j = s_rs st j) /\ (forall j, s_rt m j = s_rt st j) /\
    (forall j, j <> 0 -> s_is m j = s_is st j) /\ sh_free m = sh_free st /\ sh_first m = sh_first st /\
    (forall j, s_it m j = s_it st j).

  (** The capacity chosen by init for a store with [n] allocated links. *)
  Definition s_capacity (n : N) : N :=
    s_align (N.max (N.max n (c_page cf)) (c_step cf)) (c_step cf).

  Lemma s_align_ge n t : 0 < t -> n <= s_align n t.
  Proof.
    intros T. unfold s_align. destruct (N.eqb_spec (n mod t) 0); [lia|].
    pose proof (N.div_mod n t). pose proof (N.mod_lt n t). nia.
  Qed.
  Lemma s_align_gt n t : 0 < t -> n mod t <> 0 -> n < s_align n t.
  Proof.
    intros T M. unfold s_align. destruct (N.eqb_spec (n mod t) 0); [lia|].
    pose proof (N.div_mod n t). pose proof (N.mod_lt n t). nia.
  Qed.
  (** The capacity leaves room for the links unless their number is a positive multiple of
      the step and at least a page. *)
  Lemma s_capacity_gt n : n < c_page cf \/ n < c_step cf \/ n mod c_step cf <> 0 -> n < s_capacity n.
  Proof.
    pose proof (ok_step _ CF). intros K. unfold s_capacity.
    set (m := N.max (N.max n (c_page cf)) (c_step cf)).
    pose proof (s_align_ge m (c_step cf)).
    assert (n <= m) by lia. destruct (N.eq_dec n m) as [E|]; [|lia].
    destruct K as [K|[K|K]]; [lia|lia|]. rewrite E in K |- *. apply s_align_gt; auto. lia.
  Qed.
  Lemma s_capacity_step n : c_step cf <= s_capacity n.
  Proof.
    pose proof (ok_step _ CF). unfold s_capacity. set (m := N.max (N.max n (c_page cf)) (c_step cf)).
    pose proof (s_align_ge m (c_step cf)). lia.
  Qed.

  Theorem s_open_smem m st a sP tP :
    s_same_cells m st -> smem cf st a sP tP ->
    let c := s_capacity (a_top a) in
    a_top a < c -> c - 1 <= c_tmax cf ->
    s_orc m 0%nat (c_page cf) (c_page cf) = Grown -> s_orc m 1%nat c c = Grown ->
    exists st', s_open cf m = Val (Ok st') /\ smem cf st' a sP tP /\ s_ilen st' = c /\ s_orc st' = fun k => s_orc m (S (S k)).
  Proof.
    intros (S1 & S2 & S3 & S4 & S5 & S6 & S7) R c TC TM O1 O2.
    pose proof (ok_page _ CF). pose proof (ok_step _ CF). pose proof (s_capacity_step (a_top a)) as CS. fold c in CS.
    unfold s_open, s_alloc_mem. rewrite O1. cbn [negb].
    unfold s_header at 1. cbn [s_ilen]. destruct (N.ltb_spec 0 (c_page cf)); [|lia]. cbn [obind s_orc s_dcap].
    change (sh_alloc (mkS _ _ _ _ _ _ _ _ _)) with (s_rs m 0). rewrite S2. fold (sh_alloc st). rewrite (sm_alloc _ _ _ _ _ R).
    cbn [s_ilen]. fold (s_capacity (a_top a)). fold c. rewrite O2. cbn [negb].
    unfold s_header. cbn [s_ilen s_dcap]. destruct (N.ltb_spec 0 c); [|lia]. cbn [obind].
    rewrite csub_ok by lia. cbn [obind]. rewrite ctry_ok by lia. cbn [obind s_data s_rs s_is s_rt s_it].
    eexists. split; [reflexivity|]. split; [|split; reflexivity].
    match goal with |- smem _ ?s _ _ _ => set (st' := s) end.
    assert (IS : forall j, j <> 0 -> s_is st' j = s_is st j).
    { intros j J. unfold st', s_set_reserved. cbn [s_is s_set_src]. rewrite upd_other by auto. now apply S4. }
    assert (I0 : s_is st' 0 = mkNd (c - 1) (sh_free st) (sh_first st)).
    { unfold st', s_set_reserved. cbn [s_is s_set_src]. rewrite upd_same.
      change (sh_free (mkS _ _ _ _ _ _ _ _ _)) with (sh_free m). change (sh_first (mkS _ _ _ _ _ _ _ _ _)) with (sh_first m).
      now rewrite S5, S6. }
    assert (DD : forall j, s_data st' j = s_data st j) by exact S1.
    assert (RS : forall j, s_rs st' j = s_rs st j) by exact S2.
    assert (RT : forall j, s_rt st' j = s_rt st j) by exact S3.
    assert (IT : forall j, s_it st' j = s_it st j) by exact S7.
    constructor.
    - unfold sh_alloc. rewrite RS. apply R.
    - apply R.
    - exact TC.
    - cbn. lia.
    - reflexivity.
    - unfold sh_reserved. rewrite I0. cbn [nl]. lia.
    - unfold sh_reserved. rewrite I0. cbn [nl]. change (s_ilen st') with c. lia.
    - unfold s_lhdr. assert (sh_first st' = sh_first st) as -> by (unfold sh_first; now rewrite I0).
      assert (sh_free st' = sh_free st) as -> by (unfold sh_free; now rewrite I0).
      assert (sh_last st' = sh_last st) as -> by (unfold sh_last; now rewrite IT).
      eapply lrep_ext; [|apply (sm_list _ _ _ _ _ R)]. auto.
    - apply R.
    - apply R.
    - intros i p K. rewrite DD. now apply (sm_data _ _ _ _ _ R).
    - unfold sh_sroot. rewrite RT. eapply forest_ext; [| | | |apply (sm_src _ _ _ _ _ R)]; auto.
      intros x _. unfold key_src, key_is. now rewrite DD.
    - unfold sh_troot. rewrite IT. eapply forest_ext; [| | | |apply (sm_tgt _ _ _ _ _ R)]; auto.
      intros x _. unfold key_tgt, key_it. now rewrite DD.
    - apply R.
    - apply R.
    - intros i K. rewrite DD. now apply (sm_beyond _ _ _ _ _ R).
    - rewrite DD. exact (sm_data0 _ _ _ _ _ R).
    - rewrite IT. exact (sm_res8 _ _ _ _ _ R).
  Qed.

  Theorem s_open_ok m st a :
    s_same_cells m st -> sinv cf st a ->
    let c := s_capacity (a_top a) in
    a_top a < c -> c - 1 <= c_tmax cf ->
    s_orc m 0%nat (c_page cf) (c_page cf) = Grown -> s_orc m 1%nat c c = Grown ->
    exists st', s_open cf m = Val (Ok st') /\ sinv cf st' a /\ s_ilen st' = c /\ s_orc st' = fun k => s_orc m (S (S k)).
  Proof.
    intros SC (R & WV) c TC TM O1 O2. destruct (s_open_smem m st a _ _ SC R TC TM O1 O2) as (st' & E & R' & X).
    exists st'. split; auto. split; [split; auto|auto].
  Qed.

  Theorem s_open_blank orc : let c := s_capacity 0 in c - 1 <= c_tmax cf ->
    orc 0%nat (c_page cf) (c_page cf) = Grown -> orc 1%nat c c = Grown ->
    exists st, s_open cf (s_blank orc) = Val (Ok st) /\ sinv cf st a_empty /\ s_ilen st = c /\
      s_orc st = fun k => orc (S (S k)).
  Proof.
    intros c TM O1 O2. pose proof (ok_step _ CF). pose proof (s_capacity_step 0).
    apply (s_open_ok (s_blank orc)
      (mkS 2 2 2 orc (fun _ => (0, 0)) (fun _ => 0) (upd (fun _ => nd0) 0 (mkNd 1 0 0)) (fun _ => 0) (fun _ => nd0)) a_empty); auto.
    - repeat split; auto. intros j J. cbn [s_is s_blank]. now rewrite upd_other.
    - assert (FO : forall kf kg c', (forall x, x <> 0 -> c' x = nd0) -> forest kf kg c' (fun _ => 0) 0 (fun _ => Out)).
      { intros kf kg c' C. constructor; [| |auto|discriminate].
        - apply (tree_inv_ext (fun _ => (0, 0)) _ c' _ 0 (fun _ => False)); [| | |apply tree_inv_empty]; [|intros ? []|intros ? []].
          intros i. split; [tauto|discriminate].
        - intros v V. apply (tree_inv_ext (fun _ => (0, 0)) _ c' _ 0 (fun _ => False)); [| | |apply tree_inv_empty]; [|intros ? []|intros ? []].
          intros i. split; [tauto|discriminate]. }
      split; [|split; [apply awf_empty|intros x s; discriminate]].
      constructor; cbn; try lia; auto; try tauto; try discriminate.
      + split; [constructor|]. repeat split; auto.
      + intros i. split; [congruence|]. intros [K _]. lia.
      + apply FO. intros x X. now apply upd_other.
      + exact (fun _ => I).
      + exact (fun _ => I).
    - cbn [a_top a_empty]. fold c. lia.
  Qed.
End Writes.
