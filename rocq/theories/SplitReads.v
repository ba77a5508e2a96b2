(** each_links and count_links of the two-memory store against the specification. *)
From Coq Require Import NArith List Bool Lia Permutation.
From Verif Require Import Base Trees Lists TreeInv Spec UnitModel UnitInv LinkModel SplitModel Forest SplitInv.
Import ListNotations.
Open Scope N_scope.

(** Some link has a source that is not a link. *)
Definition extsrc (a : astate) : Prop := exists x s t, a_map a x = Some (s, t) /\ s <> 0 /\ a_map a s = None.

(** Queries for which each_links does what it should: the null reference confuses the store
    once there are holes. *)
Definition each_q (cf : cfg) (a : astate) (q : list N) : Prop :=
  let any := c_any cf in
  match q with
  | [] => True
  | [_] => True
  | [i; v] => i = any -> v = 0 -> a_free a = []
  | [i; s; t] => i = any -> (t = 0 -> a_free a = []) /\ (s = 0 -> t = any /\ a_free a = [])
  | _ => False
  end.

(** Queries for which count_links does what it should. *)
Definition count_q (cf : cfg) (a : astate) (q : list N) : Prop :=
  let any := c_any cf in
  match q with
  | [] => True
  | [_] => True
  | [i; v] =>
      v = any \/
      if i =? any then
        (v = 0 -> a_free a = []) /\ (a_map a v = None -> a_free a = [] \/ extsrc a) /\
        2 * a_top a <= c_tmax cf
      else forall s t, a_map a i = Some (s, t) -> (s = v <-> t = v)
  | [i; s; t] =>
      i = any ->
      (t = 0 -> a_free a = []) /\ (s = 0 -> t = any /\ a_free a = []) /\
      (s <> any -> a_map a s = None ->
        (a_free a = [] \/ extsrc a) /\ (t = any \/ forall x s' t', a_map a x = Some (s', t') -> s' <> s))
  | _ => False
  end.

(** The number of visits. *)
Definition acount (any : N) (q : list N) (a : astate) : N :=
  let n := N.of_nat (length (avisits any q a)) in
  if is_search any q then N.min 1 n else n.

Lemma visits_count any q a L : visits_ok any q a L -> N.of_nat (length L) = acount any q a.
Proof.
  unfold visits_ok, acount. destruct (is_search any q).
  - intros [[-> ->]|(l & -> & K)]; [reflexivity|]. destruct (avisits any q a); [destruct K|]. cbn [length]. lia.
  - intros [P _]. now rewrite (Permutation_length P).
Qed.

Lemma filter_index_wf a p i : awf a ->
  filter (fun lk => (l_index lk =? i) && p lk) (alinks a) =
  match a_map a i with Some (s, t) => if p (mkLink i s t) then [mkLink i s t] else [] | None => [] end.
Proof.
  intros W. unfold alinks. rewrite filter_index_gen by apply nodup_range1.
  destruct (in_dec N.eq_dec i (range1 (a_top a))) as [K|K]; [reflexivity|].
  destruct (a_map a i) as [[s t]|] eqn:E; [|reflexivity]. exfalso. apply K, in_range1.
  apply (wf_dom _ W). congruence.
Qed.

Section Reads.
  Variable cf : cfg.
  Hypothesis CF : cfg_ok cf.
  Variable st : sst.
  Variable a : astate.
  Hypothesis I : sinv cf st a.

  Let R : smem cf st a (spl a) (tpl a) := proj1 I.
  Let W : awf a := proj1 (proj2 I).
  Let V : all_placed a (tpl a) := all_placed_tpl a (proj2 (proj2 I)).

  Lemma any_none : a_map a (c_any cf) = None.
  Proof.
    apply awf_none; auto. left. pose proof (sm_iend _ _ _ _ _ R). pose proof (ok_iend _ CF). lia.
  Qed.

  Lemma nonnull i p : a_map a i = Some p -> i <> 0.
  Proof. intros E ->. apply (awf_some _ _ _ W) in E. lia. Qed.

  Lemma s_each_one_ok i p H (h : rhandler H) x :
    s_each_one cf st h i p x =
    Val (run_handler h (filter (fun lk => (l_index lk =? i) && p lk) (alinks a)) x).
  Proof.
    unfold s_each_one. rewrite (s_get_link_ok _ CF _ _ _ _ _ R V). cbn [obind].
    rewrite (filter_index_wf _ _ _ W). destruct (a_map a i) as [[s t]|]; [|reflexivity]. cbn [olink].
    destruct (p (mkLink i s t)); [|reflexivity]. cbn [run_handler].
    destruct (h x (mkLink i s t)) as [x' []]; reflexivity.
  Qed.

  Lemma link_of_map x s t : a_map a x = Some (s, t) -> link_of (s_data st) x = mkLink x s t.
  Proof. intros E. unfold link_of. now rewrite (sm_data _ _ _ _ _ R _ _ E). Qed.

  Lemma spl_int x v : spl a x = Int v <-> exists t, a_map a x = Some (v, t) /\ v <> 0 /\ a_map a v <> None.
  Proof.
    unfold spl. destruct (a_map a x) as [[s t]|] eqn:E.
    - rewrite place_of_int. split.
      + intros (-> & K). exists t. auto.
      + intros (t' & K1 & K2). inversion K1; subst. auto.
    - split; [discriminate|]. intros (t & K & _). discriminate.
  Qed.
  Lemma tpl_int x v : tpl a x = Int v <-> exists s, a_map a x = Some (s, v) /\ v <> 0 /\ a_map a v <> None.
  Proof.
    unfold tpl. destruct (a_map a x) as [[s t]|] eqn:E.
    - rewrite place_of_int. split.
      + intros (-> & K). exists s. auto.
      + intros (t' & K1 & K2). inversion K1; subst. auto.
    - split; [discriminate|]. intros (t & K & _). discriminate.
  Qed.
  Lemma spl_ext x : spl a x = Ext <-> exists s t, a_map a x = Some (s, t) /\ s <> 0 /\ a_map a s = None.
  Proof.
    unfold spl. destruct (a_map a x) as [[s t]|] eqn:E.
    - rewrite place_of_ext. split.
      + intros K. exists s, t. auto.
      + intros (s' & t' & K1 & K2). inversion K1; subst. auto.
    - split; [discriminate|]. intros (s & t & K & _). discriminate.
  Qed.
  Lemma tpl_ext x : tpl a x = Ext <-> exists s t, a_map a x = Some (s, t) /\ t <> 0 /\ a_map a t = None.
  Proof.
    unfold tpl. destruct (a_map a x) as [[s t]|] eqn:E.
    - rewrite place_of_ext. split.
      + intros K. exists s, t. auto.
      + intros (s' & t' & K1 & K2). inversion K1; subst. auto.
    - split; [discriminate|]. intros (s & t & K & _). discriminate.
  Qed.

  (** A list of nodes that are exactly the links with property [p] gives the right visits. *)
  Lemma nodes_perm U (p : link -> bool) :
    NoDup U -> (forall i, In i U <-> exists s t, a_map a i = Some (s, t) /\ p (mkLink i s t) = true) ->
    Permutation (map (link_of (s_data st)) U) (filter p (alinks a)).
  Proof.
    intros ND HU. apply NoDup_Permutation.
    - now apply map_link_nodup.
    - apply NoDup_filter, nodup_alinks.
    - intros l. rewrite in_map_iff, filter_In, (in_alinks' _ _ W). split.
      + intros (i & E & K). apply HU in K as (s & t & K1 & K2). rewrite (link_of_map _ _ _ K1) in E. subst l. auto.
      + intros [K1 K2]. exists (l_index l). rewrite (link_of_map _ _ _ K1). destruct l as [i s t]. cbn in *.
        split; auto. apply HU. eauto.
  Qed.

  (** Links by source. *)
  Lemma s_src_walk v : (v = 0 -> a_free a = []) ->
    exists L, Permutation L (if v =? 0 then [] else filter (fun l => l_source l =? v) (alinks a)) /\
      (forall H (h : rhandler H) x,
         (if isvirt a v then s_es_each st v h x else s_is_each st v h x) = Val (run_handler h L x)) /\
      (isvirt a v = false -> s_is_count st v = Val (N.of_nat (length L))) /\
      (isvirt a v = true -> a_free a = [] \/ extsrc a -> s_es_count cf st v = Val (N.of_nat (length L))).
  Proof.
    intros V0. unfold isvirt. destruct (N.eqb_spec v 0) as [->|NZ].
    - rewrite (V0 eq_refl). destruct (s_es_walk _ CF _ _ _ _ 0 R) as (U & U1 & U2 & U3 & U4).
      assert (UE : U = []).
      { destruct U as [|x U]; auto. exfalso. assert (K : In x (x :: U)) by now left.
        apply U2 in K as [K1 K2]. apply spl_ext in K1 as (s & t & E & S0 & _).
        rewrite (sm_data _ _ _ _ _ R _ _ E) in K2. cbn in K2. congruence. }
      subst U. exists []. split; auto. split; auto. split; [discriminate|].
      intros _ C. apply U4. auto.
    - destruct (a_map a v) as [p|] eqn:EV.
      + pose proof (awf_some _ _ _ W EV) as [VR _].
        destruct (s_is_walk _ _ _ _ _ v R NZ) as (U & U1 & U2 & U3 & U4); [lia|].
        exists (map (link_of (s_data st)) U). split; [|split; [auto|split; [|discriminate]]].
        * apply nodes_perm; auto. intros i. rewrite U2, spl_int. split.
          -- intros (t & E & _). exists v, t. split; auto. cbn. apply N.eqb_refl.
          -- intros (s & t & E & K). cbn in K. apply N.eqb_eq in K. subst s. exists t. split; auto. split; congruence.
        * intros _. now rewrite map_length.
      + destruct (s_es_walk _ CF _ _ _ _ v R) as (U & U1 & U2 & U3 & U4).
        exists (map (link_of (s_data st)) U). split; [|split; [auto|split; [discriminate|]]].
        * apply nodes_perm; auto. intros i. rewrite U2, spl_ext. split.
          -- intros ((s & t & E & S0 & _) & K). rewrite (sm_data _ _ _ _ _ R _ _ E) in K. cbn in K. subst s.
             exists v, t. split; auto. cbn. apply N.eqb_refl.
          -- intros (s & t & E & K). cbn in K. apply N.eqb_eq in K. subst s.
             rewrite (sm_data _ _ _ _ _ R _ _ E). split; [|reflexivity]. exists v, t. auto.
        * intros _ C. rewrite map_length. apply U4. destruct C as [C|(x & C)]; auto. right. exists x. now apply spl_ext.
  Qed.

  (** Links by target. *)
  Lemma s_tgt_walk v : (v = 0 -> a_free a = []) ->
    exists L, Permutation L (if v =? 0 then [] else filter (fun l => l_target l =? v) (alinks a)) /\
      (forall H (h : rhandler H) x,
         (if isvirt a v then s_et_each st v h x else s_it_each st v h x) = Val (run_handler h L x)) /\
      (if isvirt a v then s_et_count cf st v else s_it_count st v) = Val (N.of_nat (length L)).
  Proof.
    intros V0. unfold isvirt. destruct (N.eqb_spec v 0) as [->|NZ].
    - rewrite (V0 eq_refl). destruct (s_et_walk _ CF _ _ _ _ 0 R) as (U & U1 & U2 & U3 & U4).
      assert (UE : U = []).
      { destruct U as [|x U]; auto. exfalso. assert (K : In x (x :: U)) by now left.
        apply U2 in K as [K1 K2]. apply tpl_ext in K1 as (s & t & E & S0 & _).
        rewrite (sm_data _ _ _ _ _ R _ _ E) in K2. cbn in K2. congruence. }
      subst U. exists []. split; auto.
    - destruct (a_map a v) as [p|] eqn:EV.
      + pose proof (awf_some _ _ _ W EV) as [VR _].
        destruct (s_it_walk _ _ _ _ _ v R NZ) as (U & U1 & U2 & U3 & U4); [lia|].
        exists (map (link_of (s_data st)) U). split; [|split; [auto|]].
        * apply nodes_perm; auto. intros i. rewrite U2, tpl_int. split.
          -- intros (s & E & _). exists s, v. split; auto. cbn. apply N.eqb_refl.
          -- intros (s & t & E & K). cbn in K. apply N.eqb_eq in K. subst t. exists s. split; auto. split; congruence.
        * now rewrite map_length.
      + destruct (s_et_walk _ CF _ _ _ _ v R) as (U & U1 & U2 & U3 & U4).
        exists (map (link_of (s_data st)) U). split; [|split; [auto|]].
        * apply nodes_perm; auto. intros i. rewrite U2, tpl_ext. split.
          -- intros ((s & t & E & S0 & _) & K). rewrite (sm_data _ _ _ _ _ R _ _ E) in K. cbn in K. subst t.
             exists s, v. split; auto. cbn. apply N.eqb_refl.
          -- intros (s & t & E & K). cbn in K. apply N.eqb_eq in K. subst t.
             rewrite (sm_data _ _ _ _ _ R _ _ E). split; [|reflexivity]. exists s, v. auto.
        * now rewrite map_length.
  Qed.

  (** Searching for a pair. *)
  Lemma s_search_ok s t : s <> 0 -> (t = 0 -> a_free a = []) ->
    exists r, s_search st (isvirt a s) (isvirt a t) s t = Val r /\
      ((r = 0 /\ forall i, a_map a i <> Some (s, t)) \/ (r <> 0 /\ a_map a r = Some (s, t))).
  Proof.
    intros S0 T0.
    assert (FIN : forall r0, r0 = 0 /\ (forall i, a_map a i <> Some (s, t)) \/ a_map a r0 = Some (s, t) ->
              (r0 = 0 /\ forall i, a_map a i <> Some (s, t)) \/ (r0 <> 0 /\ a_map a r0 = Some (s, t))).
    { intros r0 [K|K]; auto. right. split; auto. eapply nonnull; eauto. }
    assert (IS : isvirt a s = false -> exists r, s_is_search st s t = Val r /\
        (r = 0 /\ (forall i, a_map a i <> Some (s, t)) \/ a_map a r = Some (s, t))).
    { unfold isvirt. destruct (N.eqb_spec s 0); [congruence|]. destruct (a_map a s) as [p|] eqn:ES; [|discriminate]. intros _.
      pose proof (awf_some _ _ _ W ES) as [VR _].
      destruct (s_is_search_ok _ _ _ _ _ s t R S0) as (r & E & K); [lia|]. exists r. split; auto.
      destruct K as [[-> K]|[_ K]]; auto. left. split; auto. intros i Hi. apply (K i); auto.
      apply spl_int. exists t. split; auto. split; congruence. }
    assert (IT : isvirt a t = false -> exists r, s_it_search st s t = Val r /\
        (r = 0 /\ (forall i, a_map a i <> Some (s, t)) \/ a_map a r = Some (s, t))).
    { unfold isvirt. destruct (N.eqb_spec t 0) as [TZ|TZ].
      { rewrite (T0 TZ). discriminate. }
      destruct (a_map a t) as [p|] eqn:ET; [|discriminate]. intros _.
      pose proof (awf_some _ _ _ W ET) as [VR _].
      destruct (s_it_search_ok _ _ _ _ _ s t R TZ) as (r & E & K); [lia|]. exists r. split; auto.
      destruct K as [[-> K]|[_ K]]; auto. left. split; auto. intros i Hi. apply (K i); auto.
      apply tpl_int. exists s. split; auto. split; congruence. }
    unfold s_search. destruct (isvirt a s) eqn:VS; destruct (isvirt a t) eqn:VT; cbn [andb].
    - destruct (s_es_search_ok _ _ _ _ _ s t R) as (r & E & K). exists r. split; auto. apply FIN.
      destruct K as [[-> K]|[_ K]]; auto. left. split; auto. intros i Hi. apply (K i); auto.
      apply spl_ext. exists s, t. split; auto. split; auto. unfold isvirt in VS.
      destruct (N.eqb_spec s 0); [congruence|]. destruct (a_map a s); congruence.
    - destruct (IT eq_refl) as (r & E & K). exists r. auto.
    - destruct (IS eq_refl) as (r & E & K). exists r. auto.
    - assert (SV : s <= a_top a).
      { unfold isvirt in VS. destruct (N.eqb_spec s 0); [congruence|]. destruct (a_map a s) eqn:ES; [|discriminate].
        apply (awf_some _ _ _ W) in ES. lia. }
      assert (TZ : t <> 0) by (intros ->; unfold isvirt in VT; rewrite (T0 eq_refl) in VT; discriminate).
      assert (TV : t <= a_top a).
      { unfold isvirt in VT. destruct (N.eqb_spec t 0); [congruence|]. destruct (a_map a t) eqn:ES; [|discriminate].
        apply (awf_some _ _ _ W) in ES. lia. }
      destruct (s_is_walk _ _ _ _ _ s R S0 SV) as (U & _ & _ & _ & CU). rewrite CU. cbn [obind].
      destruct (s_it_walk _ _ _ _ _ t R TZ TV) as (U' & _ & _ & _ & CU'). rewrite CU'. cbn [obind].
      destruct (_ <? _).
      + destruct (IT eq_refl) as (r & E & K). exists r. auto.
      + destruct (IS eq_refl) as (r & E & K). exists r. auto.
  Qed.

  (** each with a query of length 3 *)
  Lemma s_each3_ok i s t : each_q cf a [i; s; t] ->
    exists L, visits_ok (c_any cf) [i; s; t] a L /\
      (forall H (h : rhandler H) x, s_each3 cf st h i s t x = Val (run_handler h L x)).
  Proof.
    intros Q. cbn [each_q] in Q.
    unfold visits_ok, is_search, avisits, is_all, is_either.
    assert (E3 : forall H (h : rhandler H) x, s_each3 cf st h i s t x =
      if i =? c_any cf then
        if (s =? c_any cf) && (t =? c_any cf) then s_each_all cf st h x
        else if s =? c_any cf then
          if isvirt a t then s_et_each st t h x else s_it_each st t h x
        else if t =? c_any cf then
          if isvirt a s then s_es_each st s h x else s_is_each st s h x
        else
          let* r := s_search st (isvirt a s) (isvirt a t) s t in
          if r =? 0 then Val (x, Continue)
          else
            let* o := s_get_link cf st r in
            match o with
            | Some lk => Val (h x lk)
            | None => UB
            end
      else
        s_each_one cf st h i (fun lk =>
          if (s =? c_any cf) && (t =? c_any cf) then true
          else if negb (s =? c_any cf) && negb (t =? c_any cf) then
            (l_source lk =? s) && (l_target lk =? t)
          else if s =? c_any cf then l_target lk =? t
          else if t =? c_any cf then l_source lk =? s
          else false) x).
    { intros. unfold s_each3. rewrite !(s_is_virtual_ok _ _ _ _ _ _ R V). cbn [obind].
      rewrite (ok_null _ CF). reflexivity. }
    destruct (N.eqb_spec i (c_any cf)) as [->|NI].
    - destruct (Q eq_refl) as [Q1 Q2]. rewrite ?N.eqb_refl in E3.
      destruct (N.eqb_spec s (c_any cf)) as [->|NS]; destruct (N.eqb_spec t (c_any cf)) as [->|NT]; cbn [andb negb] in *.
      + exists (alinks a). split; [repeat split; auto; discriminate|]. intros. rewrite E3. eapply s_each_all_ok; eauto.
      + destruct (s_tgt_walk t Q1) as (L & L1 & L2 & _). exists L. split; [split; [exact L1|split; discriminate]|].
        intros. rewrite E3. apply L2.
      + destruct (s_src_walk s) as (L & L1 & L2 & _); [intros; now apply Q2|].
        exists L. split; [split; [exact L1|split; discriminate]|]. intros. rewrite E3. apply L2.
      + assert (S0 : s <> 0) by (intros K; apply Q2 in K; tauto).
        destruct (s_search_ok s t S0 Q1) as (r & E & K).
        destruct (N.eqb_spec s 0); [congruence|]. destruct K as [[-> K]|[R0 K]].
        * exists []. split.
          -- left. split; auto. destruct (filter _ (alinks a)) as [|l ll] eqn:EF; auto. exfalso.
             assert (IL : In l (filter (fun l => (l_source l =? s) && (l_target l =? t)) (alinks a)))
               by (rewrite EF; now left).
             apply filter_In in IL as [I1 I2]. apply (in_alinks' _ _ W) in I1.
             apply andb_true_iff in I2 as [I2 I3]. apply N.eqb_eq in I2, I3. subst. apply (K _ I1).
          -- intros. rewrite E3, E. reflexivity.
        * exists [mkLink r s t]. split.
          -- right. exists (mkLink r s t). split; auto. apply filter_In. split.
             ++ now apply (in_alinks' _ _ W).
             ++ cbn. now rewrite !N.eqb_refl.
          -- intros. rewrite E3, E. cbn [obind]. destruct (N.eqb_spec r 0); [congruence|].
             rewrite (s_get_link_ok _ CF _ _ _ _ _ R V), K. cbn [obind olink run_handler].
             destruct (h x (mkLink r s t)) as [x' []]; reflexivity.
    - cbn [andb]. eexists. split; [split; [reflexivity|split; discriminate]|]. intros. rewrite E3, s_each_one_ok.
      f_equal. f_equal. apply filter_ext_true. intros lk. rewrite <- andb_assoc. f_equal.
      destruct (s =? c_any cf), (t =? c_any cf), (l_source lk =? s), (l_target lk =? t); reflexivity.
  Qed.

  Theorem s_each_ok q : each_q cf a q ->
    exists L, visits_ok (c_any cf) q a L /\
      (forall H (h : rhandler H) x, s_each cf h q st x = Val (run_handler h L x)).
  Proof.
    intros Q. destruct q as [|i [|v [|w [|]]]]; [| | | |destruct Q].
    - exists (alinks a). split; [unfold visits_ok; cbn; repeat split; auto; discriminate|].
      intros. eapply s_each_all_ok; eauto.
    - unfold visits_ok, is_search, is_all, is_either, avisits, s_each, qget. rewrite (ok_ipart _ CF).
      cbn [N.to_nat nth_error obind].
      destruct (N.eqb_spec i (c_any cf)) as [->|NI].
      + exists (alinks a). split; [repeat split; auto; discriminate|]. intros; eapply s_each_all_ok; eauto.
      + eexists. split; [split; [reflexivity|split; discriminate]|].
        rewrite (filter_ext_true _ (fun l => (l_index l =? i) && true)) by (intros; now rewrite andb_true_r).
        intros. rewrite s_each_one_ok. reflexivity.
    - cbn [each_q] in Q. unfold s_each, qget. rewrite (ok_ipart _ CF). cbn [N.to_nat nth_error obind].
      unfold visits_ok, is_search, is_all, is_either, avisits.
      destruct (N.eqb_spec i (c_any cf)) as [->|NI].
      + specialize (Q eq_refl). destruct (N.eqb_spec v (c_any cf)) as [->|NV].
        * exists (alinks a). split; [repeat split; auto; discriminate|]. intros; eapply s_each_all_ok; eauto.
        * destruct (s_src_walk v Q) as (L & L1 & L2 & _). destruct (s_tgt_walk v Q) as (L' & L1' & L2' & _).
          exists (L ++ L'). split.
          -- cbn [andb negb]. split; [|split; [discriminate|]].
             ++ destruct (v =? 0).
                ** change ([] : list link) with (@nil link ++ []). now apply Permutation_app.
                ** now apply Permutation_app.
             ++ intros w E W0. inversion E; subst w. destruct (N.eqb_spec v 0); [congruence|].
                exists L, L'. auto.
          -- intros. unfold s_each3. rewrite !(s_is_virtual_ok _ _ _ _ _ _ R V). cbn [obind].
             rewrite !N.eqb_refl. destruct (N.eqb_spec v (c_any cf)); [congruence|]. cbn [andb].
             rewrite L2. cbn [obind]. rewrite run_handler_app.
             destruct (run_handler h L x) as [x1 []]; [|reflexivity]. apply L2'.
      + cbn [andb]. eexists. split; [split; [reflexivity|split; discriminate]|].
        intros. rewrite s_each_one_ok. reflexivity.
    - destruct (s_each3_ok i v w Q) as (L & L1 & L2). exists L. split; [exact L1|]. intros. unfold s_each.
      rewrite (ok_ipart _ CF), (ok_spart _ CF), (ok_tpart _ CF), qget_0, qget_1, qget_2. cbn [obind]. apply L2.
  Qed.

  Lemma isvirt_some v p : a_map a v = Some p -> isvirt a v = false.
  Proof. intros E. unfold isvirt. destruct (N.eqb_spec v 0) as [->|]; [apply nonnull in E; congruence|]. now rewrite E. Qed.
  Lemma isvirt_none v : a_map a v = None -> (v = 0 -> a_free a = []) -> isvirt a v = true.
  Proof. intros E K. unfold isvirt. destruct (N.eqb_spec v 0) as [Z|]; [now rewrite (K Z)|]. now rewrite E. Qed.

  Lemma perm_len_le L (p : link -> bool) (b : bool) :
    Permutation L (if b then [] else filter p (alinks a)) -> N.of_nat (length L) <= a_top a.
  Proof.
    intros P. rewrite (Permutation_length P). pose proof (alinks_count_wf _ W).
    destruct b; [cbn; lia|]. pose proof (filter_len_le p (alinks a)). lia.
  Qed.

  Theorem s_count_ok q : count_q cf a q -> s_count cf st q = Val (acount (c_any cf) q a).
  Proof.
    intros Q. destruct q as [|i [|v [|w [|]]]]; [| | | |destruct Q].
    - unfold s_count. rewrite (s_total_ok _ _ _ _ _ R W). reflexivity.
    - unfold s_count, acount, is_search, avisits, qget. rewrite (ok_ipart _ CF). cbn [N.to_nat nth_error obind].
      destruct (N.eqb_spec i (c_any cf)) as [->|NI].
      + now rewrite (s_total_ok _ _ _ _ _ R W).
      + rewrite (s_exists_ok _ CF _ _ _ _ _ R V). cbn [obind].
        rewrite (filter_ext_true _ (fun l => (l_index l =? i) && true)) by (intros; now rewrite andb_true_r).
        rewrite (filter_index_wf _ _ _ W). destruct (a_map a i) as [[s t]|]; reflexivity.
    - cbn [count_q] in Q. unfold s_count, acount, is_search, avisits, qget. rewrite (ok_ipart _ CF).
      cbn [N.to_nat nth_error obind]. rewrite (s_is_virtual_ok _ _ _ _ _ _ R V). cbn [obind].
      destruct (N.eqb_spec i (c_any cf)) as [->|NI].
      + destruct (N.eqb_spec v (c_any cf)) as [->|NV]; [now rewrite (s_total_ok _ _ _ _ _ R W)|].
        destruct Q as [Q|(Q1 & Q2 & Q3)]; [congruence|].
        destruct (s_src_walk v Q1) as (L & L1 & L2 & L3 & L4). destruct (s_tgt_walk v Q1) as (L' & L1' & L2' & L3').
        assert (LEN : N.of_nat (length L + length L') = N.of_nat (length (if v =? 0 then []
            else filter (fun l => l_source l =? v) (alinks a) ++ filter (fun l => l_target l =? v) (alinks a)))).
        { rewrite (Permutation_length L1), (Permutation_length L1'). destruct (v =? 0); [reflexivity|]. now rewrite app_length. }
        rewrite <- LEN. pose proof (perm_len_le _ _ _ L1). pose proof (perm_len_le _ _ _ L1').
        destruct (a_map a v) as [p|] eqn:EV.
        * rewrite (isvirt_some _ _ EV) in *. rewrite L3, L3' by auto. cbn [obind]. rewrite cadd_ok by lia. f_equal. lia.
        * rewrite (isvirt_none _ EV Q1) in *. rewrite L4, L3' by auto. cbn [obind]. rewrite cadd_ok by lia. f_equal. lia.
      + rewrite (s_exists_ok _ CF _ _ _ _ _ R V), (filter_index_wf _ _ _ W). cbn [obind].
        destruct (a_map a i) as [[s t]|] eqn:E; cbn [negb]; [|reflexivity].
        destruct (N.eqb_spec v (c_any cf)) as [->|NV]; [reflexivity|].
        destruct Q as [Q|Q]; [congruence|]. specialize (Q _ _ eq_refl).
        assert (IR : i <= a_top a) by (apply (awf_some _ _ _ W) in E; lia).
        rewrite (s_get_data_ok _ _ _ _ _ _ R IR). cbn [obind]. rewrite (sm_data _ _ _ _ _ R _ _ E).
        cbn [fst snd l_source l_target orb].
        destruct (N.eqb_spec s v); destruct (N.eqb_spec t v); cbn; try reflexivity; tauto.
    - cbn [count_q] in Q. unfold s_count, acount, is_search, avisits.
      rewrite (ok_ipart _ CF), (ok_spart _ CF), (ok_tpart _ CF), qget_0, qget_1, qget_2. cbn [obind].
      rewrite !(s_is_virtual_ok _ _ _ _ _ _ R V). cbn [obind]. rename v into s. rename w into t.
      destruct (N.eqb_spec i (c_any cf)) as [->|NI]; cbn [andb].
      + destruct (Q eq_refl) as (Q1 & Q2 & Q3). clear Q.
        destruct (N.eqb_spec s (c_any cf)) as [->|NS]; cbn [andb negb].
        * destruct (N.eqb_spec t (c_any cf)) as [->|NT]; [now rewrite (s_total_ok _ _ _ _ _ R W)|].
          destruct (s_tgt_walk t Q1) as (L & L1 & L2 & L3). rewrite L3. f_equal. f_equal. now apply Permutation_length.
        * assert (QS : s = 0 -> a_free a = []) by (intros K; now apply Q2).
          destruct (s_src_walk s QS) as (L & L1 & L2 & L3 & L4).
          destruct (a_map a s) as [p|] eqn:ES.
          -- rewrite (isvirt_some _ _ ES) in *. pose proof (nonnull _ _ ES) as S0.
             destruct (N.eqb_spec s 0); [congruence|].
             destruct (N.eqb_spec t (c_any cf)) as [->|NT]; cbn [negb].
             ++ rewrite L3 by auto. f_equal. f_equal. now apply Permutation_length.
             ++ clear L1 L2 L3 L4. destruct (s_search_ok s t S0 Q1) as (r & E & K). rewrite (isvirt_some _ _ ES) in E. rewrite E.
                cbn [obind]. rewrite (ok_null _ CF). destruct K as [[-> K]|[R0 K]].
                ** cbn [N.eqb]. destruct (filter _ (alinks a)) as [|l ll] eqn:EF; [reflexivity|]. exfalso.
                   assert (IL : In l (filter (fun l => (l_source l =? s) && (l_target l =? t)) (alinks a)))
                     by (rewrite EF; now left).
                   apply filter_In in IL as [I1 I2]. apply (in_alinks' _ _ W) in I1.
                   apply andb_true_iff in I2 as [I2 I3]. apply N.eqb_eq in I2, I3. subst. apply (K _ I1).
                ** destruct (N.eqb_spec r 0); [congruence|].
                   destruct (filter _ (alinks a)) as [|l ll] eqn:EF; [|cbn [length]; f_equal; lia]. exfalso.
                   assert (IL : In (mkLink r s t) (filter (fun l => (l_source l =? s) && (l_target l =? t)) (alinks a))).
                   { apply filter_In. split; [now apply (in_alinks' _ _ W)|]. cbn. now rewrite !N.eqb_refl. }
                   rewrite EF in IL. destruct IL.
          -- rewrite (isvirt_none _ ES QS) in *. destruct (Q3 NS eq_refl) as [Q4 Q5]. rewrite L4 by auto.
             destruct (N.eqb_spec t (c_any cf)) as [->|NT]; cbn [negb].
             ++ f_equal. f_equal. now apply Permutation_length.
             ++ destruct Q5 as [Q5|Q5]; [congruence|].
                assert (Z : forall p, filter (fun l => (l_source l =? s) && p l) (alinks a) = []).
                { clear L1 L2 L3 L4. intros p. destruct (filter _ (alinks a)) as [|l ll] eqn:EF; [reflexivity|]. exfalso.
                  assert (IL : In l (filter (fun l => (l_source l =? s) && p l) (alinks a))) by (rewrite EF; now left).
                  apply filter_In in IL as [I1 I2]. apply (in_alinks' _ _ W) in I1.
                  apply andb_true_iff in I2 as [I2 _]. apply N.eqb_eq in I2. eapply Q5; eauto. }
                rewrite (Z (fun l => l_target l =? t)). rewrite (Permutation_length L1).
                rewrite (filter_ext_true (fun l => l_source l =? s) (fun l => (l_source l =? s) && true)) by (intros; now rewrite andb_true_r).
                rewrite (Z (fun _ => true)). destruct (s =? 0); reflexivity.
      + rewrite (s_exists_ok _ CF _ _ _ _ _ R V). cbn [obind].
        rewrite (filter_ext_true _ (fun l => (l_index l =? i) &&
            (((s =? c_any cf) || (l_source l =? s)) && ((t =? c_any cf) || (l_target l =? t)))))
          by (intros; now rewrite andb_assoc).
        rewrite (filter_index_wf _ _ _ W).
        destruct (a_map a i) as [[u v]|] eqn:E; cbn [negb]; [|reflexivity].
        assert (IR : i <= a_top a) by (apply (awf_some _ _ _ W) in E; lia).
        assert (D : s_get_data_unchecked st i = Val (u, v)).
        { unfold s_get_data_unchecked. rewrite (s_view_ok _ _ _ _ _ R). cbn [obind].
          pose proof (sm_len _ _ _ _ _ R). pose proof (sm_dlen _ _ _ _ _ R). rewrite rdu_ok by lia.
          now rewrite (sm_data _ _ _ _ _ R _ _ E). }
        rewrite D. cbn [obind fst snd l_source l_target].
        destruct (s =? c_any cf), (t =? c_any cf), (u =? s), (v =? t); reflexivity.
  Qed.
End Reads.
