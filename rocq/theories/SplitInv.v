(** Invariant of the two-memory store, and correctness of its reads. *)
From Coq Require Import NArith List Bool Lia Permutation Sorted.
From Verif Require Import Base Trees Lists TreeInv Spec UnitModel UnitInv LinkModel SplitModel Forest.
Import ListNotations.
Open Scope N_scope.

(** Where a link referring to [v] belongs: nowhere for the null reference, in the internal
    tree of [v] if [v] is a link, in the external tree otherwise. *)
Definition place_of (a : astate) (v : N) : place :=
  if v =? 0 then Out else match a_map a v with Some _ => Int v | None => Ext end.
Definition spl (a : astate) (x : N) : place :=
  match a_map a x with Some (s, _) => place_of a s | None => Out end.
Definition tpl (a : astate) (x : N) : place :=
  match a_map a x with Some (_, t) => place_of a t | None => Out end.

(** Nodes in a tree are links, and an internal tree belongs to a link. *)
Definition sp_ok (a : astate) (pl : N -> place) : Prop := forall x,
  match pl x with
  | Out => True
  | Ext => psrc a x
  | Int v => (exists t, a_map a x = Some (v, t)) /\ v <> 0 /\ a_map a v <> None
  end.
Definition tp_ok (a : astate) (pl : N -> place) : Prop := forall x,
  match pl x with
  | Out => True
  | Ext => ptgt a x
  | Int v => (exists s, a_map a x = Some (s, v)) /\ v <> 0 /\ a_map a v <> None
  end.

(** Memory [st] holds the links of [a], with the trees as described by [sP] and [tP]. *)
Record smem (cf : cfg) (st : sst) (a : astate) (sP tP : N -> place) : Prop := {
  sm_alloc : sh_alloc st = a_top a;
  sm_iend : a_top a <= c_iend cf;
  sm_len : a_top a < s_ilen st;
  sm_dlen : s_ilen st <= s_dlen st;
  sm_dcap : s_dlen st = s_dcap st;
  sm_res1 : 1 <= sh_reserved st;
  sm_res2 : sh_reserved st <= s_ilen st <= sh_reserved st + 1;
  sm_list : lrep (s_lhdr st) (s_data st) (a_free a);
  sm_dom : forall i, a_map a i <> None <-> (1 <= i <= a_top a /\ ~ In i (a_free a));
  sm_free : forall i, In i (a_free a) -> 1 <= i <= a_top a;
  sm_data : forall i p, a_map a i = Some p -> s_data st i = p;
  sm_src : forest (key_src (s_data st)) (key_is (s_data st)) (s_is st) (s_rs st) (sh_sroot st) sP;
  sm_tgt : forest (key_tgt (s_data st)) (key_it (s_data st)) (s_it st) (s_rt st) (sh_troot st) tP;
  sm_sp : sp_ok a sP;
  sm_tp : tp_ok a tP;
  sm_beyond : forall i, a_top a < i -> s_data st i = (0, 0);
  sm_data0 : s_data st 0 = (0, 0);
  sm_res8 : nz (s_it st 0) = 0
}.

(** A link with a source has a target; otherwise it looks like an unused slot. *)
Definition visible (a : astate) : Prop := forall x s, a_map a x = Some (s, 0) -> s = 0.

Definition sinv (cf : cfg) (st : sst) (a : astate) : Prop :=
  smem cf st a (spl a) (tpl a) /\ awf a /\ visible a.

Lemma place_of_out a v : place_of a v = Out <-> v = 0.
Proof. unfold place_of. destruct (N.eqb_spec v 0); [tauto|]. destruct (a_map a v); split; congruence. Qed.
Lemma place_of_ext a v : place_of a v = Ext <-> v <> 0 /\ a_map a v = None.
Proof. unfold place_of. destruct (N.eqb_spec v 0); [split; [discriminate|tauto]|]. destruct (a_map a v); split; try tauto; try discriminate; intros [_ K]; discriminate. Qed.
Lemma place_of_int a v w : place_of a v = Int w <-> v = w /\ v <> 0 /\ a_map a v <> None.
Proof.
  unfold place_of. destruct (N.eqb_spec v 0); [split; [discriminate|tauto]|].
  destruct (a_map a v); split; try discriminate; try tauto.
  - intros K. inversion K. subst. repeat split; auto. discriminate.
  - intros (-> & _). reflexivity.
Qed.

Lemma sp_ok_spl a : sp_ok a (spl a).
Proof.
  intros x. unfold spl. destruct (a_map a x) as [[s t]|] eqn:E; [|exact I].
  destruct (place_of a s) as [| |v] eqn:P; [exact I| |].
  - apply place_of_ext in P. exists s, t. tauto.
  - apply place_of_int in P as (<- & P). split; eauto.
Qed.
Lemma tp_ok_tpl a : tp_ok a (tpl a).
Proof.
  intros x. unfold tpl. destruct (a_map a x) as [[s t]|] eqn:E; [|exact I].
  destruct (place_of a t) as [| |v] eqn:P; [exact I| |].
  - apply place_of_ext in P. exists s, t. tauto.
  - apply place_of_int in P as (<- & P). split; eauto.
Qed.

Lemma sp_ok_psrc a pl x : sp_ok a pl -> pl x <> Out -> psrc a x.
Proof.
  intros O K. specialize (O x). destruct (pl x); [congruence|auto|].
  destruct O as ((t & E) & V & _). exists v, t. auto.
Qed.
Lemma tp_ok_ptgt a pl x : tp_ok a pl -> pl x <> Out -> ptgt a x.
Proof.
  intros O K. specialize (O x). destruct (pl x); [congruence|auto|].
  destruct O as ((t & E) & V & _). exists t, v. auto.
Qed.
Lemma sp_ok_upd a pl x p : sp_ok a pl ->
  match p with Out => True | Ext => psrc a x
  | Int v => (exists t, a_map a x = Some (v, t)) /\ v <> 0 /\ a_map a v <> None end ->
  sp_ok a (upd pl x p).
Proof. intros O K y. unfold upd. destruct (N.eqb_spec y x) as [->|]; [exact K|apply O]. Qed.
Lemma tp_ok_upd a pl x p : tp_ok a pl ->
  match p with Out => True | Ext => ptgt a x
  | Int v => (exists s, a_map a x = Some (s, v)) /\ v <> 0 /\ a_map a v <> None end ->
  tp_ok a (upd pl x p).
Proof. intros O K y. unfold upd. destruct (N.eqb_spec y x) as [->|]; [exact K|apply O]. Qed.

Section Reads.
  Variable cf : cfg.
  Hypothesis CF : cfg_ok cf.

  Lemma s_header_ok st a sP tP : smem cf st a sP tP -> s_header st = Val tt.
  Proof.
    intros R. unfold s_header. pose proof (sm_len _ _ _ _ _ R).
    destruct (N.ltb_spec 0 (s_ilen st)); [reflexivity|lia].
  Qed.

  Lemma s_view_ok st a sP tP : smem cf st a sP tP -> s_view st = Val tt.
  Proof. intros R. unfold s_view. now rewrite (sm_dcap _ _ _ _ _ R), N.eqb_refl. Qed.

  Lemma s_len_ok st a sP tP : smem cf st a sP tP -> s_len st = s_ilen st.
  Proof. intros R. unfold s_len. pose proof (sm_dlen _ _ _ _ _ R). lia. Qed.

  Lemma sm_first st a sP tP : smem cf st a sP tP -> sh_first st = hd 0 (a_free a).
  Proof. intros R. destruct (sm_list _ _ _ _ _ R) as (_ & _ & H & _). exact H. Qed.
  Lemma sm_count st a sP tP : smem cf st a sP tP -> sh_free st = N.of_nat (length (a_free a)).
  Proof. intros R. destruct (sm_list _ _ _ _ _ R) as (_ & _ & _ & _ & H & _). exact H. Qed.
  Lemma sm_nodup st a sP tP : smem cf st a sP tP -> NoDup (a_free a).
  Proof. intros R. destruct (sm_list _ _ _ _ _ R) as (H & _). exact H. Qed.

  Lemma sm_none st a sP tP i : smem cf st a sP tP -> In i (a_free a) -> a_map a i = None.
  Proof.
    intros R H. destruct (a_map a i) eqn:E; auto. exfalso.
    assert (K : a_map a i <> None) by congruence. apply (sm_dom _ _ _ _ _ R) in K. tauto.
  Qed.

  Lemma sm_range st a sP tP i p : smem cf st a sP tP -> a_map a i = Some p -> 1 <= i <= a_top a /\ ~ In i (a_free a).
  Proof. intros R E. apply (sm_dom _ _ _ _ _ R). congruence. Qed.

  Lemma sm_srange st a sP tP i : smem cf st a sP tP -> sP i <> Out -> 1 <= i <= a_top a.
  Proof. intros R K. apply (sp_ok_psrc a) in K as (s & t & E & _); [|apply R]. eapply sm_range; eauto. Qed.
  Lemma sm_trange st a sP tP i : smem cf st a sP tP -> tP i <> Out -> 1 <= i <= a_top a.
  Proof. intros R K. apply (tp_ok_ptgt a) in K as (s & t & E & _); [|apply R]. eapply sm_range; eauto. Qed.

  Lemma s_get_data_ok st a sP tP i : smem cf st a sP tP -> i <= a_top a -> s_get_data st i = Val (s_data st i).
  Proof.
    intros R L. unfold s_get_data. rewrite (s_view_ok _ _ _ _ R). cbn [obind].
    pose proof (sm_len _ _ _ _ _ R). pose proof (sm_dlen _ _ _ _ _ R). apply rd_ok. lia.
  Qed.

  (** is_unused tells links and other indices apart, except for the null index. *)
  Lemma s_is_unused_ok st a sP tP v :
    smem cf st a sP tP -> v <> 0 ->
    (forall s t, a_map a v = Some (s, t) -> s = 0 \/ tP v <> Out) ->
    s_is_unused st v = Val (match a_map a v with Some _ => false | None => true end).
  Proof.
    intros R V0 VIS. unfold s_is_unused. rewrite (s_header_ok _ _ _ _ R). cbn [obind].
    rewrite (sm_alloc _ _ _ _ _ R), (sm_first _ _ _ _ R).
    pose proof (sm_len _ _ _ _ _ R) as HL.
    destruct (N.leb_spec v (a_top a)) as [LE|GT]; cbn [andb].
    2:{ destruct (a_map a v) as [p|] eqn:E; [|reflexivity].
        destruct (sm_range _ _ _ _ _ _ R E). lia. }
    destruct (N.eqb_spec (hd 0 (a_free a)) v) as [E|E]; cbn [negb].
    - destruct (a_free a) as [|x fl] eqn:EF; simpl in E; [congruence|].
      rewrite (sm_none _ _ _ _ v R); [reflexivity|]. rewrite EF, E. now left.
    - rewrite rd_ok by lia. cbn [obind]. rewrite (s_get_data_ok _ _ _ _ _ R LE). cbn [obind].
      destruct (a_map a v) as [[s t]|] eqn:EM.
      + rewrite (sm_data _ _ _ _ _ R _ _ EM). cbn [fst].
        destruct (VIS s t eq_refl) as [->|K]; [now rewrite andb_false_r|].
        pose proof (forest_size _ _ _ _ _ _ _ (sm_tgt _ _ _ _ _ R) K).
        destruct (N.eqb_spec (nz (s_it st v)) 0); [congruence|reflexivity].
      + assert (IF : In v (a_free a)).
        { destruct (in_dec N.eq_dec v (a_free a)); auto. exfalso.
          assert (K : a_map a v <> None) by (apply (sm_dom _ _ _ _ _ R); split; auto; lia). congruence. }
        assert (TO : tP v = Out).
        { destruct (tP v) eqn:EP; auto; exfalso;
            (assert (K : tP v <> Out) by congruence);
            apply (tp_ok_ptgt a) in K as (s' & t' & K & _); try congruence; apply R. }
        rewrite (fo_out _ _ _ _ _ _ (sm_tgt _ _ _ _ _ R) v V0 TO). cbn [nz nd0].
        pose proof (lrep_prev_nonzero _ _ _ _ (sm_list _ _ _ _ _ R) IF).
        destruct (N.eqb_spec (fst (s_data st v)) 0); [congruence|reflexivity].
  Qed.

  (** The null index counts as unused only while there are no holes. *)
  Lemma s_is_unused_0 st a sP tP : smem cf st a sP tP ->
    s_is_unused st 0 = Val (match a_free a with [] => true | _ => false end).
  Proof.
    intros R. unfold s_is_unused. rewrite (s_header_ok _ _ _ _ R). cbn [obind].
    rewrite (sm_first _ _ _ _ R). pose proof (sm_len _ _ _ _ _ R).
    destruct (N.leb_spec 0 (sh_alloc st)); [|lia]. cbn [andb].
    destruct (a_free a) as [|x fl] eqn:EF; cbn [hd N.eqb negb]; [reflexivity|].
    destruct (N.eqb_spec x 0) as [->|X0].
    { exfalso. assert (K : In 0 (a_free a)) by (rewrite EF; now left). apply (sm_free _ _ _ _ _ R) in K. lia. }
    cbn [negb]. rewrite rd_ok by lia. cbn [obind]. rewrite (s_get_data_ok _ _ _ _ _ R) by lia. cbn [obind].
    rewrite (sm_data0 _ _ _ _ _ R). cbn [fst]. now rewrite andb_false_r.
  Qed.

  (** All targets are in trees. *)
  Definition all_placed (a : astate) (tP : N -> place) : Prop :=
    forall v s t, a_map a v = Some (s, t) -> s = 0 \/ tP v <> Out.

  Lemma all_placed_tpl a : visible a -> all_placed a (tpl a).
  Proof.
    intros V x s t E. unfold tpl. rewrite E. destruct (N.eq_dec t 0) as [->|T0].
    - left. eapply V; eauto.
    - right. rewrite place_of_out. auto.
  Qed.

  Definition isvirt (a : astate) (v : N) : bool :=
    if v =? 0 then match a_free a with [] => true | _ => false end
    else match a_map a v with Some _ => false | None => true end.

  Lemma s_is_virtual_ok st a sP tP v : smem cf st a sP tP -> all_placed a tP ->
    s_is_virtual st v = Val (isvirt a v).
  Proof.
    intros R V. unfold s_is_virtual, isvirt. destruct (N.eqb_spec v 0) as [->|V0].
    - eapply s_is_unused_0; eauto.
    - eapply s_is_unused_ok; eauto.
  Qed.

  Lemma s_exists_ok st a sP tP i : smem cf st a sP tP -> all_placed a tP ->
    s_exists cf st i = Val (match a_map a i with Some _ => true | None => false end).
  Proof.
    intros R V. unfold s_exists. rewrite (s_header_ok _ _ _ _ R). cbn [obind].
    rewrite (ok_istart _ CF), (sm_alloc _ _ _ _ _ R).
    destruct (N.leb_spec 1 i); destruct (N.leb_spec i (a_top a)); cbn [andb];
      try (destruct (a_map a i) eqn:E; [destruct (sm_range _ _ _ _ _ _ R E); lia|reflexivity]).
    rewrite (s_is_unused_ok _ _ _ _ _ R) by (lia || apply V). cbn [obind]. destruct (a_map a i); reflexivity.
  Qed.

  Lemma s_get_link_ok st a sP tP i : smem cf st a sP tP -> all_placed a tP ->
    s_get_link cf st i = Val (olink i (a_map a i)).
  Proof.
    intros R V. unfold s_get_link. rewrite (s_exists_ok _ _ _ _ i R V). cbn [obind].
    destruct (a_map a i) as [[s t]|] eqn:E; [|reflexivity].
    destruct (sm_range _ _ _ _ _ _ R E). pose proof (sm_len _ _ _ _ _ R). pose proof (sm_dlen _ _ _ _ _ R).
    unfold s_get_data_unchecked. rewrite (s_view_ok _ _ _ _ R). cbn [obind].
    rewrite rdu_ok by lia. cbn [obind]. rewrite (sm_data _ _ _ _ _ R _ _ E). reflexivity.
  Qed.

  (** ** all links *)
  Lemma s_each_idx_ok st a sP tP H (h : rhandler H) : smem cf st a sP tP -> all_placed a tP -> forall l s,
    s_each_idx cf st h l s =
    Val (run_handler h (flat_map (fun i => match a_map a i with Some (s, t) => [mkLink i s t] | None => [] end) l) s).
  Proof.
    intros R V. induction l as [|i l IH]; intros s; cbn [s_each_idx flat_map]; [reflexivity|].
    rewrite (s_get_link_ok _ _ _ _ _ R V). cbn [obind].
    destruct (a_map a i) as [[x y]|]; cbn [olink app run_handler]; [|apply IH].
    destruct (h s (mkLink i x y)) as [s' []]; [apply IH|reflexivity].
  Qed.

  Lemma s_each_all_ok st a sP tP H (h : rhandler H) s : smem cf st a sP tP -> all_placed a tP ->
    s_each_all cf st h s = Val (run_handler h (alinks a) s).
  Proof.
    intros R V. unfold s_each_all. rewrite (s_header_ok _ _ _ _ R). cbn [obind].
    rewrite (sm_alloc _ _ _ _ _ R). eapply s_each_idx_ok; eauto.
  Qed.

  Lemma alinks_count_wf a : awf a -> N.of_nat (length (alinks a)) + N.of_nat (length (a_free a)) = a_top a.
  Proof.
    intros W. unfold alinks. rewrite alinks_length_gen.
    set (f := fun i => match a_map a i with Some _ => true | None => false end).
    assert (P : Permutation (a_free a) (filter (fun x => negb (f x)) (range1 (a_top a)))).
    { apply NoDup_Permutation.
      - apply W.
      - apply NoDup_filter, nodup_range1.
      - intros i. rewrite filter_In, in_range1. unfold f. split.
        + intros K. split; [now apply (wf_free _ W)|]. rewrite (awf_none a i W); auto.
        + intros [K1 K2]. destruct (a_map a i) eqn:E; [discriminate|].
          destruct (in_dec N.eq_dec i (a_free a)); auto. exfalso.
          assert (K : a_map a i <> None) by (apply (wf_dom _ W); auto). congruence. }
    rewrite (Permutation_length P).
    pose proof (filter_partition f (range1 (a_top a))) as Q. rewrite length_range1 in Q. lia.
  Qed.

  Lemma s_total_ok st a sP tP : smem cf st a sP tP -> awf a -> s_total st = Val (N.of_nat (length (alinks a))).
  Proof.
    intros R W. unfold s_total. rewrite (s_header_ok _ _ _ _ R). cbn [obind].
    rewrite (sm_alloc _ _ _ _ _ R), (sm_count _ _ _ _ R).
    pose proof (alinks_count_wf _ W). rewrite csub_ok by lia. f_equal. lia.
  Qed.

  (** ** Walks *)
  Lemma s_fuel_ok st a sP tP : smem cf st a sP tP -> (N.to_nat (a_top a) < s_fuel st)%nat.
  Proof. intros R. unfold s_fuel. rewrite (sm_alloc _ _ _ _ _ R). lia. Qed.

  Lemma sm_key_src st a sP tP x s t : smem cf st a sP tP -> a_map a x = Some (s, t) -> key_src (s_data st) x = (s, t).
  Proof. intros R E. unfold key_src. now rewrite (sm_data _ _ _ _ _ R _ _ E). Qed.
  Lemma sm_key_tgt st a sP tP x s t : smem cf st a sP tP -> a_map a x = Some (s, t) -> key_tgt (s_data st) x = (t, s).
  Proof. intros R E. unfold key_tgt. now rewrite (sm_data _ _ _ _ _ R _ _ E). Qed.
  Lemma sm_key_is st a sP tP x s t : smem cf st a sP tP -> a_map a x = Some (s, t) -> key_is (s_data st) x = (t, 0).
  Proof. intros R E. unfold key_is. now rewrite (sm_data _ _ _ _ _ R _ _ E). Qed.
  Lemma sm_key_it st a sP tP x s t : smem cf st a sP tP -> a_map a x = Some (s, t) -> key_it (s_data st) x = (s, 0).
  Proof. intros R E. unfold key_it. now rewrite (sm_data _ _ _ _ _ R _ _ E). Qed.

  (** The internal trees of [v]. *)
  Lemma s_is_walk st a sP tP v : smem cf st a sP tP -> v <> 0 -> v <= a_top a ->
    exists U, NoDup U /\ (forall i, In i U <-> sP i = Int v) /\
      (forall H (h : rhandler H) s, s_is_each st v h s = Val (run_handler h (map (link_of (s_data st)) U) s)) /\
      s_is_count st v = Val (N.of_nat (length U)).
  Proof.
    intros R V0 VT. pose proof (sm_len _ _ _ _ _ R) as HL.
    destruct (int_each (s_ilen st) (a_top a) (key_is (s_data st)) (s_is st) (s_rs st v) (fun x => sP x = Int v))
      with (fuel := s_fuel st) (base := fun i => fst (s_data st i)) (b := v) as (U & U' & U1 & U2 & U3 & U4 & U5 & U6 & U7 & U8); auto.
    - intros i K. eapply sm_srange; eauto. congruence.
    - eapply s_fuel_ok; eauto.
    - apply (fo_int _ _ _ _ _ _ (sm_src _ _ _ _ _ R) v V0).
    - intros i K. cbn in K. pose proof (sm_sp _ _ _ _ _ R i) as S. rewrite K in S. destruct S as ((t & E) & _).
      now rewrite (sm_data _ _ _ _ _ R _ _ E).
    - exists U. split; auto. split; auto. split.
      + intros H h s. unfold s_is_each. rewrite rd_ok by lia. cbn [obind]. rewrite (s_view_ok _ _ _ _ R). cbn [obind].
        rewrite (s_len_ok _ _ _ _ R). apply U5.
      + unfold s_is_count. rewrite rd_ok by lia. cbn [obind]. now apply U7.
  Qed.

  Lemma s_it_walk st a sP tP v : smem cf st a sP tP -> v <> 0 -> v <= a_top a ->
    exists U, NoDup U /\ (forall i, In i U <-> tP i = Int v) /\
      (forall H (h : rhandler H) s, s_it_each st v h s = Val (run_handler h (map (link_of (s_data st)) U) s)) /\
      s_it_count st v = Val (N.of_nat (length U)).
  Proof.
    intros R V0 VT. pose proof (sm_len _ _ _ _ _ R) as HL.
    destruct (int_each (s_ilen st) (a_top a) (key_it (s_data st)) (s_it st) (s_rt st v) (fun x => tP x = Int v))
      with (fuel := s_fuel st) (base := fun i => snd (s_data st i)) (b := v) as (U & U' & U1 & U2 & U3 & U4 & U5 & U6 & U7 & U8); auto.
    - intros i K. eapply sm_trange; eauto. congruence.
    - eapply s_fuel_ok; eauto.
    - apply (fo_int _ _ _ _ _ _ (sm_tgt _ _ _ _ _ R) v V0).
    - intros i K. cbn in K. pose proof (sm_tp _ _ _ _ _ R i) as S. rewrite K in S. destruct S as ((t & E) & _).
      now rewrite (sm_data _ _ _ _ _ R _ _ E).
    - exists U'. split; auto. split; auto. split.
      + intros H h s. unfold s_it_each. rewrite rd_ok by lia. cbn [obind]. rewrite (s_view_ok _ _ _ _ R). cbn [obind].
        rewrite (s_len_ok _ _ _ _ R). apply U6.
      + unfold s_it_count. rewrite rd_ok by lia. cbn [obind]. rewrite U8. now apply U7.
  Qed.

  (** The external trees.  The count of sources starts from the header's first_free field when
      the tree is empty. *)
  Lemma s_es_walk st a sP tP v : smem cf st a sP tP ->
    exists U, NoDup U /\ (forall i, In i U <-> sP i = Ext /\ fst (s_data st i) = v) /\
      (forall H (h : rhandler H) s, s_es_each st v h s = Val (run_handler h (map (link_of (s_data st)) U) s)) /\
      (a_free a = [] \/ (exists x, sP x = Ext) -> s_es_count cf st v = Val (N.of_nat (length U))).
  Proof.
    intros R. pose proof (sm_len _ _ _ _ _ R) as HL. pose proof (ok_iend _ CF). pose proof (ok_any _ CF).
    pose proof (sm_iend _ _ _ _ _ R).
    destruct (inv_each (c_tmax cf) (s_ilen st) (a_top a) (key_src (s_data st)) (s_is st) (sh_sroot st) (fun x => sP x = Ext))
      with (fuel := s_fuel st) as (U & U1 & U2 & U3 & U4); auto.
    - intros i K. eapply sm_srange; eauto. congruence.
    - eapply s_fuel_ok; eauto.
    - apply (sm_src _ _ _ _ _ R).
    - exists (U v). split; [apply U1|]. split; [intros i; rewrite U2; reflexivity|]. split.
      + intros H2 h s. unfold s_es_each. rewrite (s_header_ok _ _ _ _ R), (s_view_ok _ _ _ _ R). cbn [obind].
        rewrite (s_len_ok _ _ _ _ R). apply U3.
      + intros C. unfold s_es_count. rewrite (s_header_ok _ _ _ _ R), (s_view_ok _ _ _ _ R). cbn [obind].
        rewrite (s_len_ok _ _ _ _ R). apply U4; [|lia]. intros Z. destruct C as [C|[x C]].
        * change (sh_first st = 0). rewrite (sm_first _ _ _ _ R), C. reflexivity.
        * exfalso. pose proof (fo_ext _ _ _ _ _ _ (sm_src _ _ _ _ _ R)) as T. rewrite Z in T.
          eapply tree_inv_root0 in T. apply T. exact C.
  Qed.

  Lemma s_et_walk st a sP tP v : smem cf st a sP tP ->
    exists U, NoDup U /\ (forall i, In i U <-> tP i = Ext /\ snd (s_data st i) = v) /\
      (forall H (h : rhandler H) s, s_et_each st v h s = Val (run_handler h (map (link_of (s_data st)) U) s)) /\
      s_et_count cf st v = Val (N.of_nat (length U)).
  Proof.
    intros R. pose proof (sm_len _ _ _ _ _ R) as HL. pose proof (ok_iend _ CF). pose proof (ok_any _ CF).
    pose proof (sm_iend _ _ _ _ _ R).
    destruct (inv_each (c_tmax cf) (s_ilen st) (a_top a) (key_tgt (s_data st)) (s_it st) (sh_troot st) (fun x => tP x = Ext))
      with (fuel := s_fuel st) as (U & U1 & U2 & U3 & U4); auto.
    - intros i K. eapply sm_trange; eauto. congruence.
    - eapply s_fuel_ok; eauto.
    - apply (sm_tgt _ _ _ _ _ R).
    - exists (U v). split; [apply U1|]. split; [intros i; rewrite U2; reflexivity|]. split.
      + intros H2 h s. unfold s_et_each. rewrite (s_header_ok _ _ _ _ R), (s_view_ok _ _ _ _ R). cbn [obind].
        rewrite (s_len_ok _ _ _ _ R). apply U3.
      + unfold s_et_count. rewrite (s_header_ok _ _ _ _ R), (s_view_ok _ _ _ _ R). cbn [obind].
        rewrite (s_len_ok _ _ _ _ R). apply U4; [|lia]. intros _. apply (sm_res8 _ _ _ _ _ R).
  Qed.

  (** ** Searches *)
  Lemma s_is_search_ok st a sP tP s t : smem cf st a sP tP -> s <> 0 -> s <= a_top a ->
    exists r, s_is_search st s t = Val r /\
      ((r = 0 /\ forall i, sP i = Int s -> a_map a i <> Some (s, t)) \/ (sP r = Int s /\ a_map a r = Some (s, t))).
  Proof.
    intros R V0 VT. pose proof (sm_len _ _ _ _ _ R) as HL.
    destruct (inv_search (s_ilen st) (a_top a) (key_is (s_data st)) (s_is st) (s_rs st s) (fun x => sP x = Int s))
      with (fuel := s_fuel st) (q := (t, 0)) as (r & E & K); auto.
    - intros i K. eapply sm_srange; eauto. congruence.
    - eapply s_fuel_ok; eauto.
    - apply (fo_int _ _ _ _ _ _ (sm_src _ _ _ _ _ R) s V0).
    - exists r. split.
      + unfold s_is_search. rewrite rd_ok by lia. cbn [obind]. rewrite (s_view_ok _ _ _ _ R). cbn [obind].
        rewrite (s_len_ok _ _ _ _ R). exact E.
      + destruct K as [[-> K]|[K1 K2]].
        * left. split; auto. intros i I1 I2. apply (K i I1). eapply sm_key_is; eauto.
        * right. split; auto. pose proof (sm_sp _ _ _ _ _ R r) as S. rewrite K1 in S. destruct S as ((t' & E') & _).
          rewrite (sm_key_is _ _ _ _ _ _ _ R E') in K2. congruence.
  Qed.

  Lemma s_it_search_ok st a sP tP s t : smem cf st a sP tP -> t <> 0 -> t <= a_top a ->
    exists r, s_it_search st s t = Val r /\
      ((r = 0 /\ forall i, tP i = Int t -> a_map a i <> Some (s, t)) \/ (tP r = Int t /\ a_map a r = Some (s, t))).
  Proof.
    intros R V0 VT. pose proof (sm_len _ _ _ _ _ R) as HL.
    destruct (inv_search (s_ilen st) (a_top a) (key_it (s_data st)) (s_it st) (s_rt st t) (fun x => tP x = Int t))
      with (fuel := s_fuel st) (q := (s, 0)) as (r & E & K); auto.
    - intros i K. eapply sm_trange; eauto. congruence.
    - eapply s_fuel_ok; eauto.
    - apply (fo_int _ _ _ _ _ _ (sm_tgt _ _ _ _ _ R) t V0).
    - exists r. split.
      + unfold s_it_search. rewrite rd_ok by lia. cbn [obind]. rewrite (s_view_ok _ _ _ _ R). cbn [obind].
        rewrite (s_len_ok _ _ _ _ R). exact E.
      + destruct K as [[-> K]|[K1 K2]].
        * left. split; auto. intros i I1 I2. apply (K i I1). eapply sm_key_it; eauto.
        * right. split; auto. pose proof (sm_tp _ _ _ _ _ R r) as S. rewrite K1 in S. destruct S as ((t' & E') & _).
          rewrite (sm_key_it _ _ _ _ _ _ _ R E') in K2. congruence.
  Qed.

  Lemma s_es_search_ok st a sP tP s t : smem cf st a sP tP ->
    exists r, s_es_search st s t = Val r /\
      ((r = 0 /\ forall i, sP i = Ext -> a_map a i <> Some (s, t)) \/ (sP r = Ext /\ a_map a r = Some (s, t))).
  Proof.
    intros R. pose proof (sm_len _ _ _ _ _ R) as HL.
    destruct (inv_search (s_ilen st) (a_top a) (key_src (s_data st)) (s_is st) (sh_sroot st) (fun x => sP x = Ext))
      with (fuel := s_fuel st) (q := (s, t)) as (r & E & K); auto.
    - intros i K. eapply sm_srange; eauto. congruence.
    - eapply s_fuel_ok; eauto.
    - apply (sm_src _ _ _ _ _ R).
    - exists r. split.
      + unfold s_es_search. rewrite (s_header_ok _ _ _ _ R), (s_view_ok _ _ _ _ R). cbn [obind].
        rewrite (s_len_ok _ _ _ _ R). exact E.
      + destruct K as [[-> K]|[K1 K2]].
        * left. split; auto. intros i I1 I2. apply (K i I1). eapply sm_key_src; eauto.
        * right. split; auto. pose proof (sm_sp _ _ _ _ _ R r) as S. rewrite K1 in S. destruct S as (s' & t' & E' & _).
          rewrite (sm_key_src _ _ _ _ _ _ _ R E') in K2. congruence.
  Qed.
End Reads.
