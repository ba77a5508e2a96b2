(** Invariant of the single-memory store and correctness of its read operations. *)
From Coq Require Import NArith List Bool Lia Permutation Sorted.
From Verif Require Import Base Trees Lists TreeInv Spec UnitModel.
Import ListNotations.
Open Scope N_scope.

(** Nodes of the two trees: existing links with a non-null source (target). *)
Definition psrc (a : astate) (i : N) : Prop := exists s t, a_map a i = Some (s, t) /\ s <> 0.
Definition ptgt (a : astate) (i : N) : Prop := exists s t, a_map a i = Some (s, t) /\ t <> 0.

(** [urep cf st a]: memory [st] represents the abstract store [a]. *)
Record urep (cf : cfg) (st : ust) (a : astate) : Prop := {
  ur_alloc : h_alloc st = a_top a;
  ur_iend : a_top a <= c_iend cf;
  ur_len : a_top a < u_len st;
  ur_res1 : 1 <= h_reserved st;
  ur_res2 : h_reserved st <= u_len st <= h_reserved st + 1;
  ur_list : lrep (u_lhdr st) (u_data st) (a_free a);
  ur_dom : forall i, a_map a i <> None <-> (1 <= i <= a_top a /\ ~ In i (a_free a));
  ur_free : forall i, In i (a_free a) -> 1 <= i <= a_top a;
  ur_data : forall i p, a_map a i = Some p -> u_data st i = p;
  ur_src : tree_inv (key_src (u_data st)) (u_src st) (h_sroot st) (psrc a);
  ur_src0 : forall i, i <> 0 -> ~ psrc a i -> u_src st i = nd0;
  ur_tgt : tree_inv (key_tgt (u_data st)) (u_tgt st) (h_troot st) (ptgt a);
  ur_tgt0 : forall i, i <> 0 -> ~ ptgt a i -> u_tgt st i = nd0;
  ur_beyond : forall i, a_top a < i -> u_data st i = (0, 0);
  ur_res8 : nz (u_tgt st 0) = 0
}.

Definition uinv (cf : cfg) (st : ust) (a : astate) : Prop := urep cf st a /\ awf a.

Lemma psrc_dom a i : psrc a i -> a_map a i <> None.
Proof. intros (s & t & H & _). congruence. Qed.
Lemma ptgt_dom a i : ptgt a i -> a_map a i <> None.
Proof. intros (s & t & H & _). congruence. Qed.

Section Reads.
  Variable cf : cfg.
  Hypothesis CF : cfg_ok cf.

  Lemma u_header_ok st a : urep cf st a -> u_header st = Val tt.
  Proof.
    intros R. unfold u_header. pose proof (ur_len _ _ _ R).
    destruct (N.ltb_spec 0 (u_len st)); [reflexivity|lia].
  Qed.

  Lemma ur_first st a : urep cf st a -> h_first st = hd 0 (a_free a).
  Proof. intros R. destruct (ur_list _ _ _ R) as (_ & _ & H & _). exact H. Qed.

  Lemma ur_count st a : urep cf st a -> h_free st = N.of_nat (length (a_free a)).
  Proof. intros R. destruct (ur_list _ _ _ R) as (_ & _ & _ & _ & H & _). exact H. Qed.

  Lemma ur_nodup st a : urep cf st a -> NoDup (a_free a).
  Proof. intros R. destruct (ur_list _ _ _ R) as (H & _). exact H. Qed.

  Lemma ur_none st a i : urep cf st a -> In i (a_free a) -> a_map a i = None.
  Proof.
    intros R H. destruct (a_map a i) eqn:E; auto. exfalso.
    assert (K : a_map a i <> None) by congruence. apply (ur_dom _ _ _ R) in K. tauto.
  Qed.

  Lemma ur_psrc_range st a i : urep cf st a -> psrc a i -> 1 <= i <= a_top a.
  Proof. intros R H. apply psrc_dom in H. apply (ur_dom _ _ _ R) in H. tauto. Qed.
  Lemma ur_ptgt_range st a i : urep cf st a -> ptgt a i -> 1 <= i <= a_top a.
  Proof. intros R H. apply ptgt_dom in H. apply (ur_dom _ _ _ R) in H. tauto. Qed.

  Lemma u_is_unused_ok st a i :
    urep cf st a -> 1 <= i <= a_top a ->
    u_is_unused st i = Val (match a_map a i with Some _ => false | None => true end).
  Proof.
    intros R Hi. unfold u_is_unused. rewrite (u_header_ok _ _ R). cbn [obind].
    rewrite (ur_alloc _ _ _ R), (ur_first _ _ R).
    destruct (N.leb_spec i (a_top a)); [|lia].
    pose proof (ur_len _ _ _ R).
    destruct (N.eqb_spec (hd 0 (a_free a)) i) as [E|E]; simpl.
    - destruct (a_free a) as [|x fl] eqn:EF; simpl in E; [lia|].
      rewrite (ur_none _ _ i R); [reflexivity|]. rewrite EF, E. now left.
    - rewrite !rdu_ok by lia. cbn [obind].
      destruct (a_map a i) as [[s t]|] eqn:EM.
      + rewrite (ur_data _ _ _ R _ _ EM). simpl.
        destruct (N.eqb_spec s 0) as [->|S0]; simpl; [now rewrite andb_false_r|].
        assert (K : psrc a i) by (exists s, t; auto).
        pose proof (tree_inv_size _ _ _ _ _ (ur_src _ _ _ R) K).
        destruct (N.eqb_spec (nz (u_src st i)) 0); [congruence|reflexivity].
      + assert (IF : In i (a_free a)).
        { destruct (in_dec N.eq_dec i (a_free a)); auto. exfalso.
          assert (K : a_map a i <> None) by (apply (ur_dom _ _ _ R); auto). congruence. }
        rewrite (ur_src0 _ _ _ R i); [|lia|intros K; apply psrc_dom in K; congruence].
        simpl. pose proof (lrep_prev_nonzero _ _ _ _ (ur_list _ _ _ R) IF).
        destruct (N.eqb_spec (fst (u_data st i)) 0); [congruence|reflexivity].
  Qed.

  Lemma u_exists_ok st a i :
    urep cf st a -> u_exists cf st i = Val (match a_map a i with Some _ => true | None => false end).
  Proof.
    intros R. unfold u_exists. rewrite (u_header_ok _ _ R). cbn [obind].
    rewrite (ok_istart _ CF), (ur_alloc _ _ _ R).
    destruct (N.leb_spec 1 i); destruct (N.leb_spec i (a_top a)); simpl;
      try (destruct (a_map a i) eqn:E; [exfalso; assert (K : a_map a i <> None) by congruence;
           apply (ur_dom _ _ _ R) in K; lia|reflexivity]).
    rewrite (u_is_unused_ok _ _ _ R) by lia. simpl. destruct (a_map a i); reflexivity.
  Qed.

  Lemma u_get_link_ok st a i :
    urep cf st a -> u_get_link cf st i = Val (olink i (a_map a i)).
  Proof.
    intros R. unfold u_get_link. rewrite (u_exists_ok _ _ i R). cbn [obind].
    destruct (a_map a i) as [[s t]|] eqn:E; [|reflexivity].
    assert (K : a_map a i <> None) by congruence. apply (ur_dom _ _ _ R) in K.
    pose proof (ur_len _ _ _ R). rewrite rdu_ok by lia. cbn [obind].
    rewrite (ur_data _ _ _ R _ _ E). reflexivity.
  Qed.

  (** ** each over all links *)
  Lemma u_each_idx_ok st a H (h : rhandler H) : urep cf st a -> forall l s,
    u_each_idx cf st h l s =
    Val (run_handler h (flat_map (fun i => match a_map a i with Some (s, t) => [mkLink i s t] | None => [] end) l) s).
  Proof.
    intros R. induction l as [|i l IH]; intros s; simpl; [reflexivity|].
    rewrite (u_get_link_ok _ _ _ R). cbn [obind].
    destruct (a_map a i) as [[x y]|]; simpl; [|apply IH].
    destruct (h s (mkLink i x y)) as [s' []]; [apply IH|reflexivity].
  Qed.

  Lemma u_each_all_ok st a H (h : rhandler H) s :
    urep cf st a -> u_each_all cf st h s = Val (run_handler h (alinks a) s).
  Proof.
    intros R. unfold u_each_all. rewrite (u_header_ok _ _ R). cbn [obind].
    rewrite (ur_alloc _ _ _ R). apply u_each_idx_ok; auto.
  Qed.

  (** ** number of links *)
  Lemma alinks_length_gen (m : N -> option (N * N)) l :
    length (flat_map (fun i => match m i with Some (s, t) => [mkLink i s t] | None => [] end) l)
    = length (filter (fun i => match m i with Some _ => true | None => false end) l).
  Proof.
    induction l as [|i l IH]; simpl; [reflexivity|].
    destruct (m i) as [[x y]|]; simpl; congruence.
  Qed.

  Lemma filter_partition {A} (f : A -> bool) l :
    (length (filter f l) + length (filter (fun x => negb (f x)) l) = length l)%nat.
  Proof. induction l as [|a l IH]; simpl; [reflexivity|]. destruct (f a); simpl; lia. Qed.

  Lemma alinks_count st a : urep cf st a ->
    N.of_nat (length (alinks a)) + N.of_nat (length (a_free a)) = a_top a.
  Proof.
    intros R. unfold alinks. rewrite alinks_length_gen.
    set (f := fun i => match a_map a i with Some _ => true | None => false end).
    assert (P : Permutation (a_free a) (filter (fun x => negb (f x)) (range1 (a_top a)))).
    { apply NoDup_Permutation.
      - eapply ur_nodup; eauto.
      - apply NoDup_filter, nodup_range1.
      - intros i. rewrite filter_In, in_range1. unfold f. split.
        + intros K. split; [now apply (ur_free _ _ _ R)|]. now rewrite (ur_none _ _ _ R K).
        + intros [K1 K2]. destruct (a_map a i) eqn:E; [discriminate|].
          destruct (in_dec N.eq_dec i (a_free a)); auto. exfalso.
          assert (K : a_map a i <> None) by (apply (ur_dom _ _ _ R); auto). congruence. }
    rewrite (Permutation_length P).
    pose proof (filter_partition f (range1 (a_top a))) as Q. rewrite length_range1 in Q. lia.
  Qed.

  Lemma u_get_total_ok st a : urep cf st a -> u_get_total st = Val (N.of_nat (length (alinks a))).
  Proof.
    intros R. unfold u_get_total. rewrite (u_header_ok _ _ R). cbn [obind].
    rewrite (ur_alloc _ _ _ R), (ur_count _ _ R).
    pose proof (alinks_count _ _ R). rewrite csub_ok by lia. f_equal. lia.
  Qed.

  (** ** walks over the trees *)
  Lemma link_of_data st a i s t : urep cf st a -> a_map a i = Some (s, t) ->
    link_of (u_data st) i = mkLink i s t.
  Proof. intros R E. unfold link_of. now rewrite (ur_data _ _ _ R _ _ E). Qed.

  Lemma key_src_data st a i s t : urep cf st a -> a_map a i = Some (s, t) ->
    key_src (u_data st) i = (s, t).
  Proof. intros R E. unfold key_src. now rewrite (ur_data _ _ _ R _ _ E). Qed.
  Lemma key_tgt_data st a i s t : urep cf st a -> a_map a i = Some (s, t) ->
    key_tgt (u_data st) i = (t, s).
  Proof. intros R E. unfold key_tgt. now rewrite (ur_data _ _ _ R _ _ E). Qed.

  Lemma ur_awf_in st a l : urep cf st a ->
    (In l (alinks a) <-> a_map a (l_index l) = Some (l_source l, l_target l)).
  Proof.
    intros R. destruct l as [i s t]. unfold alinks. rewrite in_flat_map. simpl. split.
    - intros (j & _ & K). destruct (a_map a j) as [[s' t']|] eqn:E; simpl in K; [|tauto].
      destruct K as [K|[]]. inversion K; subst. exact E.
    - intros K. exists i. rewrite K. split; [|now left].
      apply in_range1. apply (ur_dom _ _ _ R). congruence.
  Qed.

  Lemma map_link_nodup d (l : list N) : NoDup l -> NoDup (map (link_of d) l).
  Proof.
    intros ND. apply FinFun.Injective_map_NoDup; auto.
    intros x y E. unfold link_of in E. congruence.
  Qed.

  (** Visits of the source tree for a non-null value. *)
  Lemma u_src_walk st a : urep cf st a -> c_iend cf <= c_tmax cf ->
    exists L : N -> list link,
      (forall v, Permutation (L v) (if v =? 0 then [] else filter (fun l => l_source l =? v) (alinks a))) /\
      (forall H v (h : rhandler H) s, u_src_each st v h s = Val (run_handler h (L v) s)) /\
      (forall v, u_src_count cf st v = Val (N.of_nat (length (L v)))).
  Proof.
    intros R M. pose proof (ur_len _ _ _ R) as HL. pose proof (ur_iend _ _ _ R).
    destruct (inv_each (c_tmax cf) (u_len st) (a_top a) (key_src (u_data st)) (u_src st) (h_sroot st)
      (psrc a) (fun i => ur_psrc_range st a i R) HL (u_fuel st)) as (U & U1 & U2 & U3 & U4).
    { unfold u_fuel. rewrite (ur_alloc _ _ _ R). lia. }
    { apply (ur_src _ _ _ R). }
    exists (fun v => map (link_of (u_data st)) (U v)). split; [|split].
    - intros v. apply NoDup_Permutation.
      + now apply map_link_nodup.
      + destruct (v =? 0); [constructor|]. apply NoDup_filter, nodup_alinks.
      + intros l. rewrite in_map_iff. split.
        * intros (i & E & K). apply U2 in K as [(s & t & K1 & K2) K3].
          rewrite (link_of_data _ _ _ _ _ R K1) in E. rewrite (key_src_data _ _ _ _ _ R K1) in K3.
          simpl in K3. subst s. destruct (N.eqb_spec v 0); [congruence|].
          apply filter_In. subst l. simpl. rewrite N.eqb_refl. split; auto.
          apply (ur_awf_in _ _ _ R). exact K1.
        * destruct (N.eqb_spec v 0) as [|V0]; [intros []|]. rewrite filter_In.
          intros [K1 K2]. apply N.eqb_eq in K2. apply (ur_awf_in _ _ _ R) in K1.
          exists (l_index l). split.
          -- rewrite (link_of_data _ _ _ _ _ R K1). destruct l; reflexivity.
          -- apply U2. split; [exists (l_source l), (l_target l); split; congruence|].
             rewrite (key_src_data _ _ _ _ _ R K1). exact K2.
    - intros H0 v h s. unfold u_src_each. rewrite (u_header_ok _ _ R). apply U3.
    - intros v. unfold u_src_count. rewrite (u_header_ok _ _ R), map_length. apply U4; [|lia].
      intros E. unfold h_sroot in E. exact E.
  Qed.

  Lemma u_tgt_walk st a : urep cf st a -> c_iend cf <= c_tmax cf ->
    exists L : N -> list link,
      (forall v, Permutation (L v) (if v =? 0 then [] else filter (fun l => l_target l =? v) (alinks a))) /\
      (forall H v (h : rhandler H) s, u_tgt_each st v h s = Val (run_handler h (L v) s)) /\
      (forall v, u_tgt_count cf st v = Val (N.of_nat (length (L v)))).
  Proof.
    intros R M. pose proof (ur_len _ _ _ R) as HL. pose proof (ur_iend _ _ _ R).
    destruct (inv_each (c_tmax cf) (u_len st) (a_top a) (key_tgt (u_data st)) (u_tgt st) (h_troot st)
      (ptgt a) (fun i => ur_ptgt_range st a i R) HL (u_fuel st)) as (U & U1 & U2 & U3 & U4).
    { unfold u_fuel. rewrite (ur_alloc _ _ _ R). lia. }
    { apply (ur_tgt _ _ _ R). }
    exists (fun v => map (link_of (u_data st)) (U v)). split; [|split].
    - intros v. apply NoDup_Permutation.
      + now apply map_link_nodup.
      + destruct (v =? 0); [constructor|]. apply NoDup_filter, nodup_alinks.
      + intros l. rewrite in_map_iff. split.
        * intros (i & E & K). apply U2 in K as [(s & t & K1 & K2) K3].
          rewrite (link_of_data _ _ _ _ _ R K1) in E. rewrite (key_tgt_data _ _ _ _ _ R K1) in K3.
          simpl in K3. subst t. destruct (N.eqb_spec v 0); [congruence|].
          apply filter_In. subst l. simpl. rewrite N.eqb_refl. split; auto.
          apply (ur_awf_in _ _ _ R). exact K1.
        * destruct (N.eqb_spec v 0) as [|V0]; [intros []|]. rewrite filter_In.
          intros [K1 K2]. apply N.eqb_eq in K2. apply (ur_awf_in _ _ _ R) in K1.
          exists (l_index l). split.
          -- rewrite (link_of_data _ _ _ _ _ R K1). destruct l; reflexivity.
          -- apply U2. split; [exists (l_source l), (l_target l); split; congruence|].
             rewrite (key_tgt_data _ _ _ _ _ R K1). exact K2.
    - intros H0 v h s. unfold u_tgt_each. rewrite (u_header_ok _ _ R). apply U3.
    - intros v. unfold u_tgt_count. rewrite (u_header_ok _ _ R), map_length. apply U4; [|lia].
      intros _. apply (ur_res8 _ _ _ R).
  Qed.

  Lemma u_src_search_ok st a s t : urep cf st a ->
    exists r, u_src_search st s t = Val r /\
      ((r = 0 /\ (s = 0 \/ forall i, a_map a i <> Some (s, t))) \/ (a_map a r = Some (s, t) /\ s <> 0)).
  Proof.
    intros R. pose proof (ur_len _ _ _ R) as HL.
    destruct (inv_search (u_len st) (a_top a) (key_src (u_data st)) (u_src st) (h_sroot st)
      (psrc a) (fun i => ur_psrc_range st a i R) HL (u_fuel st)) with (q := (s, t)) as (r & E & K).
    { unfold u_fuel. rewrite (ur_alloc _ _ _ R). lia. }
    { apply (ur_src _ _ _ R). }
    exists r. split.
    - unfold u_src_search. rewrite (u_header_ok _ _ R). exact E.
    - destruct K as [[-> K]|[(s' & t' & K1 & K2) K3]].
      + left. split; auto. destruct (N.eq_dec s 0); auto. right. intros i Hi.
        apply (K i); [exists s, t; auto|]. eapply key_src_data; eauto.
      + right. rewrite (key_src_data _ _ _ _ _ R K1) in K3. inversion K3; subst. auto.
  Qed.

  (** ** each and count agree with the specification *)
  Lemma filter_index_gen (m : N -> option (N * N)) (p : link -> bool) i : forall l, NoDup l ->
    filter (fun lk => (l_index lk =? i) && p lk)
      (flat_map (fun i => match m i with Some (s, t) => [mkLink i s t] | None => [] end) l) =
    (if in_dec N.eq_dec i l then
       match m i with Some (s, t) => if p (mkLink i s t) then [mkLink i s t] else [] | None => [] end
     else []).
  Proof.
    induction l as [|j l IH]; intros ND; [reflexivity|]. inversion ND as [|? ? N1 N2]; subst.
    cbn [flat_map]. rewrite filter_app, IH by auto.
    destruct (in_dec N.eq_dec i (j :: l)) as [K|K].
    - destruct (N.eq_dec j i) as [->|NE].
      + destruct (in_dec N.eq_dec i l); [tauto|]. rewrite app_nil_r.
        destruct (m i) as [[s t]|]; [|reflexivity]. simpl. rewrite N.eqb_refl. simpl.
        destruct (p _); reflexivity.
      + destruct (in_dec N.eq_dec i l) as [KI|KI]; [|destruct K; [congruence|tauto]].
        destruct (m j) as [[s t]|]; [|reflexivity]. simpl.
        destruct (N.eqb_spec j i); [congruence|reflexivity].
    - destruct (in_dec N.eq_dec i l); [exfalso; apply K; now right|]. rewrite app_nil_r.
      destruct (m j) as [[s t]|]; [|reflexivity]. simpl.
      destruct (N.eqb_spec j i); [exfalso; apply K; now left|reflexivity].
  Qed.

  Lemma filter_index st a p i : urep cf st a ->
    filter (fun lk => (l_index lk =? i) && p lk) (alinks a) =
    match a_map a i with Some (s, t) => if p (mkLink i s t) then [mkLink i s t] else [] | None => [] end.
  Proof.
    intros R. unfold alinks. rewrite filter_index_gen by apply nodup_range1.
    destruct (in_dec N.eq_dec i (range1 (a_top a))) as [K|K]; [reflexivity|].
    destruct (a_map a i) as [[s t]|] eqn:E; [|reflexivity]. exfalso. apply K, in_range1.
    apply (ur_dom _ _ _ R). congruence.
  Qed.

  Lemma u_each_one_ok st a i p H (h : rhandler H) s : urep cf st a ->
    u_each_one cf st h i p s =
    Val (run_handler h (filter (fun lk => (l_index lk =? i) && p lk) (alinks a)) s).
  Proof.
    intros R. unfold u_each_one. rewrite (u_get_link_ok _ _ _ R). cbn [obind].
    rewrite (filter_index _ _ _ _ R). destruct (a_map a i) as [[x y]|]; [|reflexivity]. simpl.
    destruct (p (mkLink i x y)); [|reflexivity]. simpl.
    destruct (h s (mkLink i x y)) as [s' []]; reflexivity.
  Qed.

  Lemma filter_ext_true {A} (f g : A -> bool) l : (forall x, f x = g x) -> filter f l = filter g l.
  Proof. intros E. induction l as [|a l IH]; simpl; [reflexivity|]. rewrite E, IH. reflexivity. Qed.

  Lemma index_ne_any st a i : urep cf st a -> a_map a i <> None -> i <> c_any cf.
  Proof.
    intros R K ->. apply (ur_dom _ _ _ R) in K. pose proof (ur_iend _ _ _ R).
    pose proof (ok_iend _ CF). lia.
  Qed.

  (** The three-component query. *)
  Lemma u_each3_ok st a i s t : urep cf st a ->
    exists L, visits_ok (c_any cf) [i; s; t] a L /\
      (forall H (h : rhandler H) x, u_each3 cf st h i s t x = Val (run_handler h L x)) /\
      u_count cf st [i; s; t] = Val (N.of_nat (length L)).
  Proof.
    intros R. pose proof (ok_iend _ CF) as IE. pose proof (ok_any _ CF) as AN.
    assert (M : c_iend cf <= c_tmax cf) by lia.
    unfold visits_ok, is_search, avisits, u_each3, u_count, is_all, is_either.
    rewrite (ok_ipart _ CF), (ok_spart _ CF), (ok_tpart _ CF), qget_0, qget_1, qget_2. cbn [obind].
    destruct (N.eqb_spec i (c_any cf)) as [->|NI].
    - destruct (N.eqb_spec s (c_any cf)) as [->|NS]; destruct (N.eqb_spec t (c_any cf)) as [->|NT]; cbn [andb negb].
      + exists (alinks a). split; [repeat split; auto; discriminate|]. split.
        * intros; now apply u_each_all_ok.
        * now apply u_get_total_ok.
      + destruct (u_tgt_walk _ _ R M) as (L & L1 & L2 & L3). exists (L t).
        split; [split; [apply L1|split; discriminate]|]. split; auto.
      + destruct (u_src_walk _ _ R M) as (L & L1 & L2 & L3). exists (L s).
        split; [split; [apply L1|split; discriminate]|]. split; auto.
      + destruct (u_src_search_ok _ _ s t R) as (r & E & K). rewrite E. cbn [obind].
        rewrite (ok_null _ CF). destruct K as [[-> K]|[K1 K2]].
        * exists []. split; [|split].
          -- left. split; auto. destruct (N.eqb_spec s 0); auto. destruct K as [K|K]; [congruence|].
             destruct (filter _ (alinks a)) as [|l ll] eqn:EF; auto. exfalso.
             assert (IL : In l (filter (fun l => (l_source l =? s) && (l_target l =? t)) (alinks a)))
               by (rewrite EF; now left).
             apply filter_In in IL as [I1 I2]. apply (ur_awf_in _ _ _ R) in I1.
             apply andb_true_iff in I2 as [I2 I3]. apply N.eqb_eq in I2, I3. subst.
             apply (K _ I1).
          -- intros. rewrite (u_each_one_ok _ _ _ _ _ _ _ R), (filter_index _ _ _ _ R).
             destruct (a_map a 0) as [[u v]|] eqn:E0; [|reflexivity]. exfalso.
             assert (Q : a_map a 0 <> None) by congruence. apply (ur_dom _ _ _ R) in Q. lia.
          -- reflexivity.
        * exists [mkLink r s t]. split; [|split].
          -- right. exists (mkLink r s t). split; auto.
             destruct (N.eqb_spec s 0); [congruence|]. apply filter_In. split.
             ++ now apply (ur_awf_in _ _ _ R).
             ++ simpl. now rewrite !N.eqb_refl.
          -- intros. rewrite (u_each_one_ok _ _ _ _ _ _ _ R), (filter_index _ _ _ _ R), K1. reflexivity.
          -- destruct (N.eqb_spec r 0) as [->|]; [|reflexivity]. exfalso.
             assert (Q : a_map a 0 <> None) by congruence. apply (ur_dom _ _ _ R) in Q. lia.
    - cbn [andb].
      eexists. split; [split; [reflexivity|split; discriminate]|]. split.
      + intros. rewrite (u_each_one_ok _ _ _ _ _ _ _ R). f_equal. f_equal.
        apply filter_ext_true. intros lk. rewrite <- andb_assoc. f_equal.
        rewrite (N.eqb_sym s (l_source lk)), (N.eqb_sym t (l_target lk)).
        destruct (s =? c_any cf), (t =? c_any cf), (l_source lk =? s), (l_target lk =? t); reflexivity.
      + rewrite (u_exists_ok _ _ _ R). cbn [obind].
        rewrite (filter_ext_true _ (fun l => (l_index l =? i) &&
            (((s =? c_any cf) || (l_source l =? s)) && ((t =? c_any cf) || (l_target l =? t)))))
          by (intros; now rewrite andb_assoc).
        rewrite (filter_index _ _ _ _ R).
        destruct (a_map a i) as [[u v]|] eqn:E; cbn [negb]; [|reflexivity].
        assert (Q : a_map a i <> None) by congruence. apply (ur_dom _ _ _ R) in Q.
        pose proof (ur_len _ _ _ R). rewrite rdu_ok by lia. cbn [obind].
        rewrite (ur_data _ _ _ R _ _ E). cbn [fst snd l_source l_target].
        destruct (s =? c_any cf), (t =? c_any cf), (u =? s), (v =? t); reflexivity.
  Qed.

  Lemma Permutation_len {A} (l l' : list A) : Permutation l l' -> length l = length l'.
  Proof. apply Permutation_length. Qed.

  Lemma filter_len_le {A} (f : A -> bool) l : (length (filter f l) <= length l)%nat.
  Proof. induction l as [|x l IH]; simpl; [lia|]. destruct (f x); simpl; lia. Qed.

  Theorem u_each_count_ok st a q :
    urep cf st a -> (length q = 2%nat -> 2 * a_top a <= c_tmax cf) -> (length q <= 3)%nat ->
    exists L, visits_ok (c_any cf) q a L /\
      (forall H (h : rhandler H) s, u_each cf h q st s = Val (run_handler h L s)) /\
      u_count cf st q = Val (N.of_nat (length L)).
  Proof.
    intros R DB LQ. pose proof (ok_iend _ CF) as IE. pose proof (ok_any _ CF) as AN.
    assert (M : c_iend cf <= c_tmax cf) by lia.
    destruct q as [|i [|v [|w [|]]]]; [| | | |simpl in LQ; lia].
    - exists (alinks a). split; [unfold visits_ok; cbn; repeat split; auto; discriminate|]. split.
      + intros. now apply u_each_all_ok.
      + now apply u_get_total_ok.
    - unfold visits_ok, is_search, is_all, is_either, avisits, u_each, u_count, qget. rewrite (ok_ipart _ CF).
      cbn [N.to_nat nth_error obind].
      destruct (N.eqb_spec i (c_any cf)) as [->|NI].
      + exists (alinks a). split; [repeat split; auto; discriminate|]. split.
        * intros; now apply u_each_all_ok.
        * now apply u_get_total_ok.
      + eexists. split; [split; [reflexivity|split; discriminate]|].
        rewrite (filter_ext_true _ (fun l => (l_index l =? i) && true)) by (intros; now rewrite andb_true_r).
        split.
        * intros. rewrite (u_each_one_ok _ _ _ _ _ _ _ R). reflexivity.
        * rewrite (u_exists_ok _ _ _ R), (filter_index _ _ _ _ R). cbn [obind].
          destruct (a_map a i) as [[x y]|]; reflexivity.
    - unfold u_each, qget. rewrite (ok_ipart _ CF). cbn [N.to_nat nth_error obind].
      destruct (N.eqb_spec i (c_any cf)) as [->|NI].
      + destruct (N.eqb_spec v (c_any cf)) as [->|NV].
        * exists (alinks a). unfold visits_ok, is_search, is_all, is_either, avisits. rewrite !N.eqb_refl.
          split; [repeat split; auto; discriminate|]. split.
          -- intros; now apply u_each_all_ok.
          -- unfold u_count, qget. rewrite (ok_ipart _ CF). cbn [N.to_nat nth_error obind].
             rewrite !N.eqb_refl. now apply u_get_total_ok.
        * destruct (u_src_walk _ _ R M) as (L & L1 & L2 & L3).
          destruct (u_tgt_walk _ _ R M) as (L' & L1' & L2' & L3').
          exists (L v ++ L' v). unfold visits_ok, is_search, is_all, is_either, avisits. rewrite N.eqb_refl.
          destruct (N.eqb_spec v (c_any cf)); [congruence|].
          split; [|split].
          -- specialize (L1 v). specialize (L1' v). cbn [andb negb]. split; [|split; [discriminate|]].
             ++ destruct (v =? 0).
                ** change ([] : list link) with (@nil link ++ []). now apply Permutation_app.
                ** now apply Permutation_app.
             ++ intros w E W0. inversion E; subst w. destruct (N.eqb_spec v 0); [congruence|].
                exists (L v), (L' v). auto.
          -- intros. unfold u_each3. rewrite N.eqb_refl.
             destruct (N.eqb_spec v (c_any cf)); [congruence|]. cbn [andb].
             cbn [andb]. rewrite L2. cbn [obind]. rewrite run_handler_app.
             destruct (run_handler h (L v) s) as [s1 []]; [|reflexivity].
             cbn [andb]. apply L2'.
          -- unfold u_count, qget. rewrite (ok_ipart _ CF). cbn [N.to_nat nth_error obind].
             rewrite N.eqb_refl. destruct (N.eqb_spec v (c_any cf)); [congruence|].
             rewrite L3', L3. cbn [obind]. rewrite app_length.
             assert (B1 : (length (L v) <= length (alinks a))%nat).
             { rewrite (Permutation_len _ _ (L1 v)). destruct (v =? 0); [simpl; lia|apply filter_len_le]. }
             assert (B2 : (length (L' v) <= length (alinks a))%nat).
             { rewrite (Permutation_len _ _ (L1' v)). destruct (v =? 0); [simpl; lia|apply filter_len_le]. }
             pose proof (alinks_count _ _ R). specialize (DB eq_refl).
             rewrite cadd_ok by lia. f_equal. lia.
      + unfold visits_ok, is_search, is_all, is_either, avisits. destruct (N.eqb_spec i (c_any cf)); [congruence|].
        eexists. split; [split; [reflexivity|split; discriminate]|]. split.
        * intros. rewrite (u_each_one_ok _ _ _ _ _ _ _ R). reflexivity.
        * unfold u_count, qget. rewrite (ok_ipart _ CF). cbn [N.to_nat nth_error obind].
          destruct (N.eqb_spec i (c_any cf)); [congruence|].
          rewrite (u_exists_ok _ _ _ R), (filter_index _ _ _ _ R), (u_get_link_ok _ _ _ R). cbn [obind].
          destruct (a_map a i) as [[x y]|]; cbn [negb olink l_source l_target]; [|reflexivity].
          destruct (N.eqb_spec v (c_any cf)); [reflexivity|]. cbn [obind orb].
          destruct (x =? v), (y =? v); reflexivity.
    - destruct (u_each3_ok _ _ i v w R) as (L & L1 & L2 & L3). exists L. split; [exact L1|].
      split; [|exact L3]. intros. unfold u_each.
      rewrite (ok_ipart _ CF), (ok_spart _ CF), (ok_tpart _ CF), qget_0, qget_1, qget_2.
      cbn [obind]. apply L2.
  Qed.
End Reads.
