(** Proofs of the claims about using a two-memory store freely: links may refer to indices that
    are given out later, and to themselves (C83). *)
From Coq Require Import NArith List Bool Lia Permutation Sorted.
From Verif Require Import Base Trees Lists TreeInv Spec Iface UnitModel UnitInv UnitOps LinkModel SplitModel Forest
  SplitInv SplitReads SplitOps SplitWrites SplitLinks Doublets DoubletsOK Obs Hist Claims UnitHist TreeImpl SplitHist.
Import ListNotations.
Open Scope N_scope.

Section Life.
  Variables (cf : cfg) (tops : tree_ops) (lops : list_ops).
  Notation S := (split_links cf tops lops).

  (** The client changes or deletes only links that share their pair with no other link and are
      where the store looks for them. *)
  Definition may_touch (st : sst) (Ms Mt : N -> Prop) (i : N) : Prop := separable S st i /\ ~ Ms i /\ ~ Mt i.

  (** Stores in use.  [Ms], [Mt] are the misfiled links: their source (target) is a link, but they
      are in the tree of the references to things that are not links. *)
  Inductive slife : sst -> (N -> Prop) -> (N -> Prop) -> Prop :=
  | slife_start st d : s_hist cf tops lops st d -> slife st (fun _ => False) (fun _ => False)
  | slife_create st Ms Mt H (h : whandler H) q x st' x' r : slife st Ms Mt ->
      li_create S H h q st x = Val (st', x', r) ->
      slife st'
        (fun j => Ms j \/ exists i t, no_link S st i /\ linked S st' i /\ is_link S st j i t)
        (fun j => Mt j \/ exists i s, no_link S st i /\ linked S st' i /\ is_link S st j s i)
  | slife_update st Ms Mt i s t H (h : whandler H) x st' x' r : slife st Ms Mt ->
      no_link S st i \/ (may_touch st Ms Mt i /\ (t = 0 -> s = 0)) ->
      li_update S H h [i] [i; s; t] st x = Val (st', x', r) ->
      slife st'
        (fun j => Ms j \/ (j = i /\ s = i /\ exists os ot, is_link S st i os ot /\ os <> 0))
        (fun j => Mt j \/ (j = i /\ t = i /\ exists os ot, is_link S st i os ot /\ os <> 0))
  | slife_delete st Ms Mt i H (h : whandler H) x st' x' r : slife st Ms Mt ->
      no_link S st i \/
      (may_touch st Ms Mt i /\
       forall j s t, is_link S st j s t -> j <> i -> (s = i /\ ~ Ms j) \/ (t = i /\ ~ Mt j) -> separable S st j) ->
      li_delete S H h [i] st x = Val (st', x', r) ->
      slife st'
        (fun j => Ms j /\ forall t, ~ is_link S st j i t)
        (fun j => Mt j /\ forall s, ~ is_link S st j s i)
  | slife_reopen st Ms Mt st' : slife st Ms Mt -> s_reopen cf tops lops st st' -> slife st' Ms Mt
  | slife_same st Ms Mt Ms' Mt' : slife st Ms Mt -> (forall j, Ms j <-> Ms' j) -> (forall j, Mt j <-> Mt' j) ->
      slife st Ms' Mt'.
End Life.

Section P.
  Variables (cf : cfg) (tops : tree_ops) (lops : list_ops).
  Hypothesis ENV : unit_env cf tops lops.
  Notation S := (split_links cf tops lops).

  (** Each node is in its place, or misfiled in the tree of outer references. *)
  Definition filed (M : N -> Prop) (pl right : N -> place) : Prop := forall x,
    (pl x = right x /\ ~ M x) \/ (pl x = Ext /\ (exists v, right x = Int v) /\ M x).

  Record xinv (st : sst) (Ms Mt : N -> Prop) (a : astate) (sP tP : N -> place) : Prop := {
    xi_mem : smem cf st a sP tP;
    xi_wf : awf a;
    xi_placed : all_placed a tP;
    xi_orc : both_or_none (s_orc st);
    xi_s : filed Ms sP (spl a);
    xi_t : filed Mt tP (tpl a)
  }.

  Lemma y_cf : cfg_ok cf. Proof. apply ENV. Qed.
  Lemma y_tok : tree_ops_ok tops. Proof. apply ENV. Qed.
  Lemma y_lok : list_ops_ok lops. Proof. apply ENV. Qed.

  Lemma y_get st Ms Mt a sP tP i : xinv st Ms Mt a sP tP -> li_get S st i = Val (olink i (a_map a i)).
  Proof. intros K. exact (s_get_link_ok _ y_cf _ _ _ _ _ (xi_mem _ _ _ _ _ _ K) (xi_placed _ _ _ _ _ _ K)). Qed.
  Lemma y_link st Ms Mt a sP tP i s t : xinv st Ms Mt a sP tP -> (is_link S st i s t <-> a_map a i = Some (s, t)).
  Proof.
    intros K. unfold is_link. rewrite (y_get _ _ _ _ _ _ i K).
    destruct (a_map a i) as [[s0 t0]|]; simpl; split; congruence.
  Qed.
  Lemma y_none st Ms Mt a sP tP i : xinv st Ms Mt a sP tP -> (no_link S st i <-> a_map a i = None).
  Proof.
    intros K. unfold no_link. rewrite (y_get _ _ _ _ _ _ i K).
    destruct (a_map a i) as [[s0 t0]|]; simpl; split; congruence.
  Qed.
  Lemma y_linked st Ms Mt a sP tP i : xinv st Ms Mt a sP tP -> (linked S st i <-> a_map a i <> None).
  Proof.
    intros K. unfold linked. setoid_rewrite (y_link _ _ _ _ _ _ _ _ _ K).
    destruct (a_map a i) as [[s0 t0]|]; split; try congruence; [eauto|]. intros (? & ? & K'); congruence.
  Qed.
  Lemma y_sep st Ms Mt a sP tP i : xinv st Ms Mt a sP tP -> (separable S st i <-> detachable a i).
  Proof.
    intros K. unfold separable, detachable, alone. rewrite (y_link _ _ _ _ _ _ _ _ _ K).
    setoid_rewrite (y_link _ _ _ _ _ _ _ _ _ K). split; (intros [E|D]; [now left|right]).
    - intros j [s t]. apply D.
    - intros j s t. apply D.
  Qed.

  Lemma filed_ext M M' pl pl' r r' : (forall x, M x <-> M' x) -> (forall x, pl x = pl' x) -> (forall x, r x = r' x) ->
    filed M pl r -> filed M' pl' r'.
  Proof. intros E1 E2 E3 F x. rewrite <- E1, <- E2, <- E3. apply F. Qed.

  Lemma filed_right M pl r x : filed M pl r -> ~ M x -> pl x = r x.
  Proof. intros F N. destruct (F x) as [[E _]|(_ & _ & E)]; [exact E|contradiction]. Qed.

  (** ** The calls *)
  Lemma x_start st d : s_hist cf tops lops st d -> exists a, xinv st (fun _ => False) (fun _ => False) a (spl a) (tpl a).
  Proof.
    intros HH. destruct (s_hist_inv cf tops lops ENV st d HH) as (a & [(R & W & V) O] & _). exists a.
    constructor; auto; [now apply all_placed_tpl| |]; intros x; left; auto.
  Qed.

  Lemma x_create_src a : awf a -> forall x,
    spl (a_create a) x = spl a x /\ (forall t, a_map a x <> Some (a_next a, t)) \/
    spl (a_create a) x = Int (a_next a) /\ spl a x = Ext /\ exists t, a_map a x = Some (a_next a, t).
  Proof.
    intros W x. destruct (a_next_none _ W) as [NN N0]. unfold spl. rewrite a_create_map. unfold upd.
    destruct (N.eqb_spec x (a_next a)) as [->|NE].
    - rewrite NN. left. split; [reflexivity|]. intros t. discriminate.
    - destruct (a_map a x) as [[s t]|]; [|left; split; [reflexivity|discriminate]].
      destruct (N.eq_dec s (a_next a)) as [->|NS].
      + right. split; [|split; [|eauto]].
        * apply place_of_int. rewrite a_create_map, upd_same. repeat split; auto. discriminate.
        * now apply place_of_ext.
      + left. split; [now apply place_of_create|]. intros t' E. congruence.
  Qed.
  Lemma x_create_tgt a : awf a -> forall x,
    tpl (a_create a) x = tpl a x /\ (forall s, a_map a x <> Some (s, a_next a)) \/
    tpl (a_create a) x = Int (a_next a) /\ tpl a x = Ext /\ exists s, a_map a x = Some (s, a_next a).
  Proof.
    intros W x. destruct (a_next_none _ W) as [NN N0]. unfold tpl. rewrite a_create_map. unfold upd.
    destruct (N.eqb_spec x (a_next a)) as [->|NE].
    - rewrite NN. left. split; [reflexivity|]. intros t. discriminate.
    - destruct (a_map a x) as [[s t]|]; [|left; split; [reflexivity|discriminate]].
      destruct (N.eq_dec t (a_next a)) as [->|NS].
      + right. split; [|split; [|eauto]].
        * apply place_of_int. rewrite a_create_map, upd_same. repeat split; auto. discriminate.
        * now apply place_of_ext.
      + left. split; [now apply place_of_create|]. intros t' E. congruence.
  Qed.

  Definition new_s (a : astate) (M : N -> Prop) (x : N) : Prop := M x \/ exists t, a_map a x = Some (a_next a, t).
  Definition new_t (a : astate) (M : N -> Prop) (x : N) : Prop := M x \/ exists s, a_map a x = Some (s, a_next a).

  Lemma x_create_inv st st' Ms Mt a sP tP : xinv st Ms Mt a sP tP -> smem cf st' (a_create a) sP tP -> both_or_none (s_orc st') ->
    xinv st' (new_s a Ms) (new_t a Mt) (a_create a) sP tP.
  Proof.
    intros [R W V O FS FT] R' O'. constructor; auto; [now apply awf_create|now apply all_placed_create| |].
    - intros x. unfold new_s. destruct (x_create_src a W x) as [[E NT]|(E1 & E2 & t & E3)].
      + rewrite E. destruct (FS x) as [[F1 F2]|(F1 & F2 & F3)]; [left|right; auto].
        split; auto. intros [K|(t & K)]; [auto|exact (NT t K)].
      + right. split; [|split; [eauto|right; eauto]]. destruct (FS x) as [[F1 F2]|(F1 & (v & F2) & F3)]; congruence.
    - intros x. unfold new_t. destruct (x_create_tgt a W x) as [[E NT]|(E1 & E2 & t & E3)].
      + rewrite E. destruct (FT x) as [[F1 F2]|(F1 & F2 & F3)]; [left|right; auto].
        split; auto. intros [K|(t & K)]; [auto|exact (NT t K)].
      + right. split; [|split; [eauto|right; eauto]]. destruct (FT x) as [[F1 F2]|(F1 & (v & F2) & F3)]; congruence.
  Qed.

  Lemma x_create st Ms Mt a sP tP q : xinv st Ms Mt a sP tP ->
    (s_must_grow cf st a /\ ~ room cf a /\ forall H (h : whandler H) x, s_create cf tops lops h q st x = Panic) \/
    (a_full cf a /\ fails_with (fun H h x => s_create cf tops lops h q st x) st (LimitReached (c_iend cf))) \/
    (a_free a = [] /\ ~ a_full cf a /\ exists st', xinv st' Ms Mt a sP tP /\
       fails_with (fun H h x => s_create cf tops lops h q st x) st' AllocFailed) \/
    (~ a_full cf a /\ exists st', xinv st' (new_s a Ms) (new_t a Mt) (a_create a) sP tP /\
       calls_once (fun H h x => s_create cf tops lops h q st x) st' nothing (mkLink (a_next a) 0 0)).
  Proof.
    intros K. pose proof K as [R W V O FS FT]. pose proof y_cf as CF. pose proof y_lok as LOK.
    assert (NO : both_or_none (next_orc st)) by (intros k d i; apply O).
    destruct (full_dec cf a) as [F|NF].
    { right; left. split; auto. eapply s_create_full_gen; eauto. }
    assert (MG : s_must_grow cf st a \/ ~ s_must_grow cf st a).
    { unfold s_must_grow. destruct (a_free a); [|right; intros [C _]; discriminate].
      destruct (N.ltb_spec (a_top a) (c_iend cf)); [|right; lia].
      destruct (N.leb_spec (sh_reserved st - 1) (a_top a)); [left; auto|right; lia]. }
    destruct MG as [G|NG].
    - destruct (s_orc st 0%nat (s_dcap st + c_step cf) (s_ilen st + c_step cf)) eqn:EO.
      + right; right; left. split; [apply G|]. split; auto.
        destruct (s_create_nodata_gen cf CF tops lops st a sP tP q R W V G EO) as [R' F].
        eexists. split; [|exact F]. constructor; auto.
      + exfalso. now apply O in EO.
      + destruct (N.le_gt_cases (s_ilen st + c_step cf) (c_tmax cf)) as [LE|GT].
        * right; right; right. split; auto.
          destruct (s_create_succ_gen cf CF tops lops LOK st a sP tP q R W V NF) as (st' & R' & OO & C); auto.
          exists st'. split; auto. eapply x_create_inv; eauto. destruct OO as [->| ->]; auto.
        * left. split; auto. split.
          -- intros RM. unfold room in RM. pose proof (sm_res2 _ _ _ _ _ R). pose proof (sm_res1 _ _ _ _ _ R).
             destruct G as (_ & _ & G). lia.
          -- intros H h x. eapply s_create_panic_gen; eauto.
    - right; right; right. split; auto.
      destruct (s_create_succ_gen cf CF tops lops LOK st a sP tP q R W V NF) as (st' & R' & OO & C).
      { intros G. contradiction. }
      exists st'. split; auto. eapply x_create_inv; eauto. destruct OO as [->| ->]; auto.
  Qed.

  Definition self_s (M : N -> Prop) (i os v x : N) : Prop := M x \/ (x = i /\ v = i /\ os <> 0).

  Lemma x_put M pl r a i os v : filed M pl r -> ~ M i -> a_map a i <> None -> i <> 0 ->
    filed (self_s M i os v) (upd pl i (put_in a i os v)) (upd r i (place_of a v)).
  Proof.
    intros F NM MN I0 x. unfold upd, self_s. destruct (N.eqb_spec x i) as [->|NE].
    - unfold put_in. destruct (N.eqb_spec v i) as [->|NV]; cbn [andb].
      + destruct (N.eqb_spec os 0) as [->|NO]; cbn [negb]; [left; split; auto; tauto|].
        right. split; auto. split; [exists i; apply place_of_int; auto|tauto].
      + left. split; auto. tauto.
    - destruct (F x) as [[F1 F2]|(F1 & F2 & F3)]; [left|right]; tauto.
  Qed.

  Lemma x_update st Ms Mt a sP tP i os ot s t : xinv st Ms Mt a sP tP -> a_map a i = Some (os, ot) ->
    detachable a i -> ~ Ms i -> ~ Mt i -> (t = 0 -> s = 0) ->
    exists st', xinv st' (self_s Ms i os s) (self_s Mt i os t) (a_update a i s t)
                  (upd sP i (put_in a i os s)) (upd tP i (put_in a i os t)) /\
      calls_once (fun H h x => s_update cf tops h [i] [i; s; t] st x) st' (mkLink i os ot) (mkLink i s t).
  Proof.
    intros [R W V O FS FT] M D NS NT TS. pose proof (awf_some _ _ _ W M) as [IR _].
    assert (MN : a_map a i <> None) by congruence. assert (I0 : i <> 0) by lia.
    destruct (s_update_gen cf y_cf tops y_tok st a sP tP [i] [i; s; t] i os ot s t R V) as (st' & R' & (_ & _ & SO) & C); auto.
    { rewrite (filed_right _ _ _ _ FS NS). unfold spl. now rewrite M. }
    { rewrite (filed_right _ _ _ _ FT NT). unfold tpl. now rewrite M. }
    exists st'. split; auto. constructor; auto.
    - apply awf_update; auto.
    - intros x s' t'. cbn [a_map a_update]. unfold upd. destruct (N.eqb_spec x i) as [->|NE].
      + intros [= -> ->]. destruct (N.eq_dec t' 0) as [->|T0]; [left; auto|right].
        unfold put_in. destruct ((t' =? i) && negb (os =? 0)); [discriminate|]. now rewrite place_of_out.
      + apply V.
    - congruence.
    - eapply filed_ext; [reflexivity|reflexivity| |apply x_put; eauto]. intros x. symmetry. now apply spl_update.
    - eapply filed_ext; [reflexivity|reflexivity| |apply x_put; eauto]. intros x. symmetry. now apply tpl_update.
  Qed.

  Definition heal_s (a : astate) (i : N) (M : N -> Prop) (x : N) : Prop := M x /\ forall t, a_map a x <> Some (i, t).
  Definition heal_t (a : astate) (i : N) (M : N -> Prop) (x : N) : Prop := M x /\ forall s, a_map a x <> Some (s, i).

  Lemma x_delete st Ms Mt a sP tP i os ot : xinv st Ms Mt a sP tP -> a_map a i = Some (os, ot) ->
    detachable a i -> ~ Ms i -> ~ Mt i ->
    (forall x s t, a_map a x = Some (s, t) -> x <> i -> (s = i /\ ~ Ms x) \/ (t = i /\ ~ Mt x) -> detachable a x) ->
    exists st', xinv st' (heal_s a i Ms) (heal_t a i Mt) (a_delete a i) (upd (SplitWrites.moved i sP) i Out) (upd (SplitWrites.moved i tP) i Out) /\
      calls_once (fun H h x => s_delete cf tops lops h [i] st x) st' (mkLink i os ot) nothing.
  Proof.
    intros [R W V O FS FT] M D NS NT US. pose proof (awf_some _ _ _ W M) as [IR _].
    assert (MN : a_map a i <> None) by congruence. assert (I0 : i <> 0) by lia.
    destruct (s_delete_gen cf y_cf tops y_tok lops y_lok st a sP tP [i] i os ot R W V) as (st' & R' & (_ & _ & SO) & C); auto.
    { rewrite (filed_right _ _ _ _ FS NS). unfold spl. now rewrite M. }
    { rewrite (filed_right _ _ _ _ FT NT). unfold tpl. now rewrite M. }
    { intros x NE [K|K].
      - destruct (FS x) as [[F1 F2]|(F1 & _)]; [|congruence]. rewrite K in F1. symmetry in F1.
        apply spl_int in F1 as (t & F1 & _). eapply US; eauto.
      - destruct (FT x) as [[F1 F2]|(F1 & _)]; [|congruence]. rewrite K in F1. symmetry in F1.
        apply tpl_int in F1 as (s & F1 & _). eapply US; eauto. }
    exists st'. split; auto. constructor; auto.
    - apply awf_delete; auto.
    - intros x s' t'. rewrite a_delete_map. unfold upd. destruct (N.eqb_spec x i) as [->|NE]; [discriminate|].
      intros E. exact (moved_placed _ i _ V x s' t' E).
    - congruence.
    - eapply filed_ext; [reflexivity|reflexivity|intros x; symmetry; now apply spl_delete|].
      intros x. unfold upd, heal_s. destruct (N.eqb_spec x i) as [->|NE]; [left; tauto|]. unfold SplitWrites.moved.
      destruct (N.eqb_spec x i); [contradiction|]. destruct (FS x) as [[F1 F2]|(F1 & (v & F2) & F3)].
      + left. rewrite F1. tauto.
      + rewrite F1, F2. apply spl_int in F2 as (t & F2 & _). destruct (N.eqb_spec v i) as [->|NV].
        * left. split; auto. intros [_ K]. exact (K t F2).
        * right. split; auto. split; eauto. split; auto. intros t' E. congruence.
    - eapply filed_ext; [reflexivity|reflexivity|intros x; symmetry; now apply tpl_delete|].
      intros x. unfold upd, heal_t. destruct (N.eqb_spec x i) as [->|NE]; [left; tauto|]. unfold SplitWrites.moved.
      destruct (N.eqb_spec x i); [contradiction|]. destruct (FT x) as [[F1 F2]|(F1 & (v & F2) & F3)].
      + left. rewrite F1. tauto.
      + rewrite F1, F2. apply tpl_int in F2 as (t & F2 & _). destruct (N.eqb_spec v i) as [->|NV].
        * left. split; auto. intros [_ K]. exact (K t F2).
        * right. split; auto. split; eauto. split; auto. intros t' E. congruence.
  Qed.

  Lemma x_reopen st st' Ms Mt a sP tP : xinv st Ms Mt a sP tP -> s_reopen cf tops lops st st' -> xinv st' Ms Mt a sP tP.
  Proof.
    intros K (LT & orc & B & E). pose proof K as [R W V O FS FT]. pose proof y_cf as CF. pose proof (ok_step _ CF).
    assert (TL : a_top a < s_capacity cf (a_top a)).
    { destruct (wf_top _ W) as [T|T]; [pose proof (s_capacity_step cf CF (a_top a)); lia|].
      apply (s_capacity_gt cf CF). apply LT; [now apply (y_linked _ _ _ _ _ _ _ K)|].
      intros j J. apply (y_linked _ _ _ _ _ _ _ K) in J. apply (wf_dom _ W) in J. lia. }
    assert (HA : sh_alloc (s_persist st orc) = a_top a) by exact (sm_alloc _ _ _ _ _ R).
    destruct (s_open_cond cf tops lops ENV _ _ E) as (T & O1 & O2). rewrite HA in T, O2.
    destruct (s_open_smem cf CF (s_persist st orc) st a sP tP) as (st2 & E2 & R2 & _ & O3); auto.
    - repeat split; auto.
    - assert (st2 = st') as -> by congruence. constructor; auto. rewrite O3. now apply both_shift.
  Qed.

  Lemma x_none st Ms Mt a sP tP i : xinv st Ms Mt a sP tP -> a_map a i = None ->
    (forall s t, fails_with (fun H h x => s_update cf tops h [i] [i; s; t] st x) st (NotExists i)) /\
    fails_with (fun H h x => s_delete cf tops lops h [i] st x) st (NotExists i).
  Proof.
    intros K M. pose proof (y_get _ _ _ _ _ _ i K) as G. cbn [li_get split_links] in G. rewrite M in G. cbn [olink] in G. split.
    - intros s t H h x. unfold s_update. change (qget [i] 0) with (Val i). change (qget [i; s; t] 1) with (Val s).
      change (qget [i; s; t] 2) with (Val t). cbn [obind]. now rewrite G.
    - intros H h x. unfold s_delete. change (qget [i] 0) with (Val i). cbn [obind]. now rewrite G.
  Qed.

  Lemma x_ext st Ms Mt Ms' Mt' a sP tP : (forall x, Ms x <-> Ms' x) -> (forall x, Mt x <-> Mt' x) ->
    xinv st Ms Mt a sP tP -> xinv st Ms' Mt' a sP tP.
  Proof.
    intros E1 E2 [R W V O FS FT]. constructor; auto; [apply (filed_ext Ms Ms' sP sP (spl a) (spl a))|apply (filed_ext Mt Mt' tP tP (tpl a) (tpl a))]; auto.
  Qed.

  (** What a misfiled link refers to is a link. *)
  Lemma x_stray_s st Ms Mt a sP tP x : xinv st Ms Mt a sP tP -> Ms x ->
    exists v t, a_map a x = Some (v, t) /\ v <> 0 /\ a_map a v <> None /\ sP x = Ext.
  Proof.
    intros K X. destruct (xi_s _ _ _ _ _ _ K x) as [[_ F]|(F1 & (v & F2) & _)]; [contradiction|].
    apply spl_int in F2 as (t & F2). exists v, t. tauto.
  Qed.
  Lemma x_stray_t st Ms Mt a sP tP x : xinv st Ms Mt a sP tP -> Mt x ->
    exists s v, a_map a x = Some (s, v) /\ v <> 0 /\ a_map a v <> None /\ tP x = Ext.
  Proof.
    intros K X. destruct (xi_t _ _ _ _ _ _ K x) as [[_ F]|(F1 & (v & F2) & _)]; [contradiction|].
    apply tpl_int in F2 as (s & F2). exists s, v. tauto.
  Qed.

  Theorem slife_inv st Ms Mt : slife cf tops lops st Ms Mt -> exists a sP tP, xinv st Ms Mt a sP tP.
  Proof.
    induction 1 as [st d HH|st Ms Mt H h q x st' x' r HL IH E|st Ms Mt i s t H h x st' x' r HL IH OK E|
      st Ms Mt i H h x st' x' r HL IH OK E|st Ms Mt st' HL IH E|st Ms Mt Ms' Mt' HL IH E1 E2].
    - destruct (x_start st d HH) as (a & K). eauto.
    - destruct IH as (a & sP & tP & K). cbn [li_create split_links] in E.
      destruct (x_create st Ms Mt a sP tP q K) as [(_ & _ & P)|[[_ F]|[(_ & _ & st2 & K2 & F)|(_ & st2 & K2 & F)]]].
      + rewrite P in E. discriminate.
      + rewrite F in E. injection E as <- _ _. exists a, sP, tP. eapply x_ext; [| |exact K]; intros y; split; auto.
        * intros [C|(i & t & C1 & C2 & _)]; auto. apply (y_none _ _ _ _ _ _ _ K) in C1. apply (y_linked _ _ _ _ _ _ _ K) in C2. contradiction.
        * intros [C|(i & t & C1 & C2 & _)]; auto. apply (y_none _ _ _ _ _ _ _ K) in C1. apply (y_linked _ _ _ _ _ _ _ K) in C2. contradiction.
      + rewrite F in E. injection E as <- _ _. exists a, sP, tP. eapply x_ext; [| |exact K2]; intros y; split; auto.
        * intros [C|(i & t & C1 & C2 & _)]; auto. apply (y_none _ _ _ _ _ _ _ K) in C1. apply (y_linked _ _ _ _ _ _ _ K2) in C2. contradiction.
        * intros [C|(i & t & C1 & C2 & _)]; auto. apply (y_none _ _ _ _ _ _ _ K) in C1. apply (y_linked _ _ _ _ _ _ _ K2) in C2. contradiction.
      + rewrite F in E. injection E as <- _ _. exists (a_create a), sP, tP.
        destruct (a_next_none _ (xi_wf _ _ _ _ _ _ K)) as [NN N0].
        assert (NX : forall i, no_link S st i /\ linked S st2 i <-> i = a_next a).
        { intros i. rewrite (y_none _ _ _ _ _ _ _ K), (y_linked _ _ _ _ _ _ _ K2), a_create_map. unfold upd.
          destruct (N.eqb_spec i (a_next a)) as [->|NE]; [split; auto; split; auto; discriminate|]. split; [tauto|contradiction]. }
        eapply x_ext; [| |exact K2]; intros y; unfold new_s, new_t; split; (intros [C|C]; [now left|right]).
        * destruct C as (t & C). exists (a_next a), t. destruct (proj2 (NX _) eq_refl). split; auto. split; auto.
          now apply (y_link _ _ _ _ _ _ _ _ _ K).
        * destruct C as (i & t & C1 & C2 & C3). exists t. rewrite <- (proj1 (NX i) (conj C1 C2)).
          now apply (y_link _ _ _ _ _ _ _ _ _ K).
        * destruct C as (t & C). exists (a_next a), t. destruct (proj2 (NX _) eq_refl). split; auto. split; auto.
          now apply (y_link _ _ _ _ _ _ _ _ _ K).
        * destruct C as (i & t & C1 & C2 & C3). exists t. rewrite <- (proj1 (NX i) (conj C1 C2)).
          now apply (y_link _ _ _ _ _ _ _ _ _ K).
    - destruct IH as (a & sP & tP & K). cbn [li_update split_links] in E.
      destruct (a_map a i) as [[os ot]|] eqn:M.
      + destruct OK as [OK|[(D & NS & NT) TS]]; [apply (y_none _ _ _ _ _ _ _ K) in OK; congruence|].
        apply (y_sep _ _ _ _ _ _ _ K) in D.
        destruct (x_update st Ms Mt a sP tP i os ot s t K M D NS NT TS) as (st2 & K2 & F).
        rewrite F in E. destruct (h x (mkLink i os ot) (mkLink i s t)). injection E as <- _ _.
        exists (a_update a i s t). do 2 eexists. eapply x_ext; [| |exact K2].
        * intros y. unfold self_s. split; (intros [C|C]; [now left|right]).
          -- destruct C as (C1 & C2 & C3). split; auto. split; auto. exists os, ot. split; auto. now apply (y_link _ _ _ _ _ _ _ _ _ K).
          -- destruct C as (C1 & C2 & os' & ot' & C3 & C4). apply (y_link _ _ _ _ _ _ _ _ _ K) in C3. split; auto. split; auto. congruence.
        * intros y. unfold self_s. split; (intros [C|C]; [now left|right]).
          -- destruct C as (C1 & C2 & C3). split; auto. split; auto. exists os, ot. split; auto. now apply (y_link _ _ _ _ _ _ _ _ _ K).
          -- destruct C as (C1 & C2 & os' & ot' & C3 & C4). apply (y_link _ _ _ _ _ _ _ _ _ K) in C3. split; auto. split; auto. congruence.
      + destruct (x_none _ _ _ _ _ _ _ K M) as [F _]. rewrite F in E. injection E as <- _ _. exists a, sP, tP.
        eapply x_ext; [| |exact K]; intros y; (split; [auto|]); (intros [C|(_ & _ & os & ot & C & _)]; auto);
          apply (y_link _ _ _ _ _ _ _ _ _ K) in C; congruence.
    - destruct IH as (a & sP & tP & K). cbn [li_delete split_links] in E.
      destruct (a_map a i) as [[os ot]|] eqn:M.
      + destruct OK as [OK|[(D & NS & NT) US]]; [apply (y_none _ _ _ _ _ _ _ K) in OK; congruence|].
        apply (y_sep _ _ _ _ _ _ _ K) in D.
        destruct (x_delete st Ms Mt a sP tP i os ot K M D NS NT) as (st2 & K2 & F).
        { intros y s t MY NE UU. apply (y_sep _ _ _ _ _ _ _ K). eapply US; eauto. now apply (y_link _ _ _ _ _ _ _ _ _ K). }
        rewrite F in E. destruct (h x (mkLink i os ot) nothing). injection E as <- _ _.
        exists (a_delete a i). do 2 eexists. eapply x_ext; [| |exact K2].
        * intros y. unfold heal_s. setoid_rewrite (y_link _ _ _ _ _ _ _ _ _ K). tauto.
        * intros y. unfold heal_t. setoid_rewrite (y_link _ _ _ _ _ _ _ _ _ K). tauto.
      + destruct (x_none _ _ _ _ _ _ _ K M) as [_ F]. rewrite F in E. injection E as <- _ _. exists a, sP, tP.
        eapply x_ext; [| |exact K]; intros y; (split; [|tauto]); intros C; (split; [exact C|]).
        * intros t L. apply (y_link _ _ _ _ _ _ _ _ _ K) in L. destruct (x_stray_s _ _ _ _ _ _ _ K C) as (v & t' & C1 & C2 & C3 & _). congruence.
        * intros t L. apply (y_link _ _ _ _ _ _ _ _ _ K) in L. destruct (x_stray_t _ _ _ _ _ _ _ K C) as (v & t' & C1 & C2 & C3 & _). congruence.
    - destruct IH as (a & sP & tP & K). exists a, sP, tP. eapply x_reopen; eauto.
    - destruct IH as (a & sP & tP & K). exists a, sP, tP. eapply x_ext; eauto.
  Qed.
End P.

(** * C83 *)
Section Q.
  Variables (cf : cfg) (tops : tree_ops) (lops : list_ops).
  Hypothesis ENV : unit_env cf tops lops.
  Notation S := (split_links cf tops lops).

  Lemma y_full st Ms Mt a sP tP : xinv cf st Ms Mt a sP tP -> (range_full cf S st <-> a_full cf a).
  Proof.
    intros K. pose proof (xi_wf _ _ _ _ _ _ _ K) as W. pose proof (sm_iend _ _ _ _ _ (xi_mem _ _ _ _ _ _ _ K)) as LE.
    unfold range_full, a_full. setoid_rewrite (y_linked cf tops lops ENV _ _ _ _ _ _ _ K). split.
    - intros A. assert (c_iend cf <= a_top a).
      { destruct (N.eq_dec (c_iend cf) 0) as [|NE]; [lia|]. specialize (A (c_iend cf)). apply (wf_dom _ W) in A; lia. }
      split; auto. destruct (a_free a) as [|x fl] eqn:E; auto. exfalso.
      pose proof (wf_free _ W x) as F. rewrite E in F. specialize (F (or_introl eq_refl)).
      specialize (A x). apply (wf_dom _ W) in A; [|lia]. apply A. rewrite E. now left.
    - intros [K1 K2] i Hi. apply (wf_dom _ W). rewrite K1. split; [lia|simpl; tauto].
  Qed.

  Lemma y_same st Ms Mt a sP tP st' Ms' Mt' a' sP' tP' j : xinv cf st Ms Mt a sP tP -> xinv cf st' Ms' Mt' a' sP' tP' ->
    a_map a' j = a_map a j -> li_get S st' j = li_get S st j.
  Proof. intros K K' E. rewrite (y_get cf tops lops ENV _ _ _ _ _ _ j K), (y_get cf tops lops ENV _ _ _ _ _ _ j K'). now rewrite E. Qed.

  Lemma y_count st Ms Mt a sP tP : xinv cf st Ms Mt a sP tP -> li_count S st [] = Val (N.of_nat (length (alinks a))).
  Proof. intros K. cbn. eapply s_total_ok; apply K. Qed.

  Lemma y_creates st Ms Mt a sP tP st' Ms' Mt' sP' tP' : xinv cf st Ms Mt a sP tP -> xinv cf st' Ms' Mt' (a_create a) sP' tP' ->
    ~ a_full cf a -> creates cf S st st' (a_next a).
  Proof.
    intros K K' NF. pose proof (xi_wf _ _ _ _ _ _ _ K) as W. pose proof (awf_create _ W) as W2.
    destruct (a_next_none _ W) as [NN N0].
    assert (M : a_map (a_create a) (a_next a) = Some (0, 0)) by (rewrite a_create_map; apply upd_same).
    split; [|split; [|split; [|split]]].
    - assert (X : a_map (a_create a) (a_next a) <> None) by congruence. apply (wf_dom _ W2) in X.
      pose proof (sm_iend _ _ _ _ _ (xi_mem _ _ _ _ _ _ _ K')). lia.
    - now apply (y_none cf tops lops ENV _ _ _ _ _ _ _ K).
    - now apply (y_link cf tops lops ENV _ _ _ _ _ _ _ _ _ K').
    - intros j J. apply (y_same _ _ _ _ _ _ _ _ _ _ _ _ j K K'). rewrite a_create_map. now apply upd_other.
    - exists (N.of_nat (length (alinks a))). rewrite (y_count _ _ _ _ _ _ K), (y_count _ _ _ _ _ _ K'). split; auto. f_equal.
      rewrite (len_add a (a_create a) (a_next a)); [lia|auto|auto| |auto|congruence].
      intros j J. rewrite a_create_map. now apply upd_other.
  Qed.

  Lemma y_nodes st Ms Mt a sP tP U (p : link -> Prop) : xinv cf st Ms Mt a sP tP -> NoDup U ->
    (forall i, In i U <-> exists s t, a_map a i = Some (s, t) /\ p (mkLink i s t)) ->
    NoDup (map (link_of (s_data st)) U) /\
    forall l, In l (map (link_of (s_data st)) U) <-> is_link S st (l_index l) (l_source l) (l_target l) /\ p l.
  Proof.
    intros K ND HU. pose proof (xi_mem _ _ _ _ _ _ _ K) as R. split; [now apply map_link_nodup|].
    assert (LO : forall x s t, a_map a x = Some (s, t) -> link_of (s_data st) x = mkLink x s t).
    { intros x s t E. unfold link_of. now rewrite (sm_data _ _ _ _ _ R _ _ E). }
    intros [i s t]. cbn [l_index l_source l_target]. rewrite (y_link cf tops lops ENV _ _ _ _ _ _ _ _ _ K), in_map_iff. split.
    - intros (x & E & X). apply HU in X as (s' & t' & X1 & X2). rewrite (LO _ _ _ X1) in E. injection E as <- <- <-. auto.
    - intros [E P]. exists i. split; [now apply LO|]. apply HU. eauto.
  Qed.

  Lemma y_by_source st Ms Mt a sP tP v : xinv cf st Ms Mt a sP tP -> v <> 0 ->
    exists L, NoDup L /\
      (forall l, In l L <-> is_link S st (l_index l) (l_source l) (l_target l) /\ l_source l = v /\ ~ Ms (l_index l)) /\
      (forall H (h : rhandler H) x, (if isvirt a v then s_es_each st v h x else s_is_each st v h x) = Val (run_handler h L x)) /\
      (a_map a v <> None -> s_is_count st v = Val (N.of_nat (length L))).
  Proof.
    intros K V0. pose proof K as [R W V O FS FT]. unfold isvirt. destruct (N.eqb_spec v 0); [contradiction|].
    destruct (a_map a v) as [p|] eqn:EV.
    - pose proof (awf_some _ _ _ W EV) as [VR _].
      destruct (s_is_walk _ _ _ _ _ v R V0) as (U & U1 & U2 & U3 & U4); [lia|].
      destruct (y_nodes _ _ _ _ _ _ U (fun l => l_source l = v /\ ~ Ms (l_index l)) K U1) as [N1 N2].
      { intros i. rewrite U2. cbn [l_index l_source]. split.
        - intros E. destruct (FS i) as [[F1 F2]|(F1 & _)]; [|congruence]. rewrite E in F1. symmetry in F1.
          apply spl_int in F1 as (t & F1 & _). exists v, t. auto.
        - intros (s & t & E & -> & NM). rewrite (filed_right _ _ _ _ FS NM). apply spl_int. exists t. split; auto. split; congruence. }
      exists (map (link_of (s_data st)) U). split; auto. split; auto. split; auto. intros _. now rewrite map_length.
    - destruct (s_es_walk _ (y_cf cf tops lops ENV) _ _ _ _ v R) as (U & U1 & U2 & U3 & U4).
      destruct (y_nodes _ _ _ _ _ _ U (fun l => l_source l = v /\ ~ Ms (l_index l)) K U1) as [N1 N2].
      { intros i. rewrite U2. cbn [l_index l_source]. split.
        - intros [E D]. pose proof (sm_sp _ _ _ _ _ R i) as SP. rewrite E in SP. destruct SP as (s & t & SP & S0).
          rewrite (sm_data _ _ _ _ _ R _ _ SP) in D. cbn in D. subst s. exists v, t. split; auto. split; auto.
          intros M. destruct (x_stray_s cf _ _ _ _ _ _ _ K M) as (v' & t' & M1 & _ & M2 & _). congruence.
        - intros (s & t & E & -> & NM). rewrite (sm_data _ _ _ _ _ R _ _ E). split; auto.
          rewrite (filed_right _ _ _ _ FS NM). apply spl_ext. eauto. }
      exists (map (link_of (s_data st)) U). split; auto. split; auto. split; auto. congruence.
  Qed.
  Lemma y_by_target st Ms Mt a sP tP v : xinv cf st Ms Mt a sP tP -> v <> 0 ->
    exists L, NoDup L /\
      (forall l, In l L <-> is_link S st (l_index l) (l_source l) (l_target l) /\ l_target l = v /\ ~ Mt (l_index l)) /\
      (forall H (h : rhandler H) x, (if isvirt a v then s_et_each st v h x else s_it_each st v h x) = Val (run_handler h L x)) /\
      (if isvirt a v then s_et_count cf st v else s_it_count st v) = Val (N.of_nat (length L)).
  Proof.
    intros K V0. pose proof K as [R W V O FS FT]. unfold isvirt. destruct (N.eqb_spec v 0); [contradiction|].
    destruct (a_map a v) as [p|] eqn:EV.
    - pose proof (awf_some _ _ _ W EV) as [VR _].
      destruct (s_it_walk _ _ _ _ _ v R V0) as (U & U1 & U2 & U3 & U4); [lia|].
      destruct (y_nodes _ _ _ _ _ _ U (fun l => l_target l = v /\ ~ Mt (l_index l)) K U1) as [N1 N2].
      { intros i. rewrite U2. cbn [l_index l_target]. split.
        - intros E. destruct (FT i) as [[F1 F2]|(F1 & _)]; [|congruence]. rewrite E in F1. symmetry in F1.
          apply tpl_int in F1 as (s & F1 & _). exists s, v. auto.
        - intros (s & t & E & -> & NM). rewrite (filed_right _ _ _ _ FT NM). apply tpl_int. exists s. split; auto. split; congruence. }
      exists (map (link_of (s_data st)) U). split; auto. split; auto. split; auto. now rewrite map_length.
    - destruct (s_et_walk _ (y_cf cf tops lops ENV) _ _ _ _ v R) as (U & U1 & U2 & U3 & U4).
      destruct (y_nodes _ _ _ _ _ _ U (fun l => l_target l = v /\ ~ Mt (l_index l)) K U1) as [N1 N2].
      { intros i. rewrite U2. cbn [l_index l_target]. split.
        - intros [E D]. pose proof (sm_tp _ _ _ _ _ R i) as SP. rewrite E in SP. destruct SP as (s & t & SP & S0).
          rewrite (sm_data _ _ _ _ _ R _ _ SP) in D. cbn in D. subst t. exists s, v. split; auto. split; auto.
          intros M. destruct (x_stray_t cf _ _ _ _ _ _ _ K M) as (v' & t' & M1 & _ & M2 & _). congruence.
        - intros (s & t & E & -> & NM). rewrite (sm_data _ _ _ _ _ R _ _ E). split; auto.
          rewrite (filed_right _ _ _ _ FT NM). apply tpl_ext. eauto. }
      exists (map (link_of (s_data st)) U). split; auto. split; auto. split; auto. now rewrite map_length.
  Qed.

  Lemma y_any st Ms Mt a sP tP : xinv cf st Ms Mt a sP tP -> a_map a (c_any cf) = None /\ c_any cf <> 0.
  Proof.
    intros K. pose proof (ok_iend _ (y_cf cf tops lops ENV)). pose proof (sm_iend _ _ _ _ _ (xi_mem _ _ _ _ _ _ _ K)).
    split; [|lia]. apply awf_none; [apply K|]. left. lia.
  Qed.
  Lemma y_virt st Ms Mt a sP tP v : xinv cf st Ms Mt a sP tP -> s_is_virtual st v = Val (isvirt a v).
  Proof. intros K. eapply s_is_virtual_ok; apply K. Qed.
End Q.

(** Every creation succeeds as usual and changes no other link; the links that referred to the
    new index become misfiled. *)
Lemma L_C83_create cf tops lops st Ms Mt q :
  let S := split_links cf tops lops in
  unit_env cf tops lops -> cfg_room cf -> slife cf tops lops st Ms Mt ->
  (range_full cf S st /\ fails_with (fun H h x => li_create S H h q st x) st (LimitReached (c_iend cf))) \/
  (~ range_full cf S st /\ exists st', same_links S st st' /\ slife cf tops lops st' Ms Mt /\
     fails_with (fun H h x => li_create S H h q st x) st' AllocFailed) \/
  (exists st' i, creates cf S st st' i /\
     slife cf tops lops st' (fun j => Ms j \/ exists t, is_link S st j i t) (fun j => Mt j \/ exists s, is_link S st j s i) /\
     calls_once (fun H h x => li_create S H h q st x) st' nothing (mkLink i 0 0)).
Proof.
  intros S ENV RM HL. subst S. destruct (slife_inv cf tops lops ENV _ _ _ HL) as (a & sP & tP & K).
  pose proof (xi_wf _ _ _ _ _ _ _ K) as W.
  destruct (x_create cf tops lops ENV st Ms Mt a sP tP q K) as [(G & NR & _)|[[F1 F]|[(_ & NF & st2 & K2 & F)|(NF & st2 & K2 & F)]]].
  - exfalso. apply NR. apply cfg_room_room; auto. apply G.
  - left. split; [now apply (y_full cf tops lops ENV _ _ _ _ _ _ K)|exact F].
  - right; left. split; [now rewrite (y_full cf tops lops ENV _ _ _ _ _ _ K)|]. exists st2.
    assert (SM : same_links (split_links cf tops lops) st st2).
    { intros j. now apply (y_same cf tops lops ENV _ _ _ _ _ _ _ _ _ _ _ _ j K K2). }
    split; auto. split; auto.
    assert (CO : forall j, no_link (split_links cf tops lops) st j -> linked (split_links cf tops lops) st2 j -> False).
    { intros j N1 N2. apply (y_none cf tops lops ENV _ _ _ _ _ _ _ K) in N1. apply (y_linked cf tops lops ENV _ _ _ _ _ _ _ K2) in N2. contradiction. }
    eapply slife_same; [exact (slife_create cf tops lops st Ms Mt unit (fun u _ _ => (u, Continue)) q tt st2 _ _ HL (F _ _ _))| |];
      intros j; (split; [intros [C|(i & y & C1 & C2 & _)]; [exact C|destruct (CO i C1 C2)]|auto]).
  - right; right. exists st2, (a_next a). pose proof (y_creates cf tops lops ENV _ _ _ _ _ _ _ _ _ _ _ K K2 NF) as CR.
    split; auto. split; auto.
    assert (NX : forall i, no_link (split_links cf tops lops) st i -> linked (split_links cf tops lops) st2 i -> i = a_next a).
    { intros i N1 N2. destruct (N.eq_dec i (a_next a)) as [|NE]; auto. exfalso.
      apply (y_none cf tops lops ENV _ _ _ _ _ _ _ K) in N1. apply (y_linked cf tops lops ENV _ _ _ _ _ _ _ K2) in N2.
      rewrite a_create_map, upd_other in N2 by auto. contradiction. }
    destruct CR as (_ & C1 & C2 & _).
    eapply slife_same; [exact (slife_create cf tops lops st Ms Mt unit (fun u _ _ => (u, Continue)) q tt st2 _ _ HL (F _ _ _))| |];
      intros j; (split; (intros [C|C]; [now left|right])).
    + destruct C as (i & t & D1 & D2 & D3). exists t. now rewrite <- (NX i D1 D2).
    + destruct C as (t & C). exists (a_next a), t. split; auto. split; auto. eexists _, _; eauto.
    + destruct C as (i & t & D1 & D2 & D3). exists t. now rewrite <- (NX i D1 D2).
    + destruct C as (t & C). exists (a_next a), t. split; auto. split; auto. eexists _, _; eauto.
Qed.

(** An update of a link that is not misfiled changes that link and no other.  A link that had a
    source and is made to refer to itself becomes misfiled. *)
Lemma L_C83_update_partial cf tops lops st Ms Mt i os ot s t :
  let S := split_links cf tops lops in
  unit_env cf tops lops -> slife cf tops lops st Ms Mt -> is_link S st i os ot ->
  may_touch cf tops lops st Ms Mt i -> (t = 0 -> s = 0) ->
  exists st', is_link S st' i s t /\ frame S st st' i /\
    slife cf tops lops st' (fun j => Ms j \/ (j = i /\ s = i /\ os <> 0)) (fun j => Mt j \/ (j = i /\ t = i /\ os <> 0)) /\
    calls_once (fun H h x => li_update S H h [i] [i; s; t] st x) st' (mkLink i os ot) (mkLink i s t).
Proof.
  intros S ENV HL LI MC TS. subst S. destruct (slife_inv cf tops lops ENV _ _ _ HL) as (a & sP & tP & K).
  pose proof LI as M. apply (y_link cf tops lops ENV _ _ _ _ _ _ _ _ _ K) in M. pose proof MC as (D & NS & NT).
  apply (y_sep cf tops lops ENV _ _ _ _ _ _ _ K) in D.
  destruct (x_update cf tops lops ENV st Ms Mt a sP tP i os ot s t K M D NS NT TS) as (st2 & K2 & F).
  exists st2. split; [|split; [|split; [|exact F]]].
  - apply (y_link cf tops lops ENV _ _ _ _ _ _ _ _ _ K2). cbn. apply upd_same.
  - intros j J. apply (y_same cf tops lops ENV _ _ _ _ _ _ _ _ _ _ _ _ j K K2). cbn. now apply upd_other.
  - eapply slife_same;
      [exact (slife_update cf tops lops st Ms Mt i s t unit (fun u _ _ => (u, Continue)) tt st2 _ _ HL (or_intror (conj MC TS)) (F _ _ _))| |];
      intros j; (split; (intros [C|(C1 & C2 & C3)]; [now left|right; split; auto; split; auto])).
    + destruct C3 as (x & y & C3 & C4). unfold is_link in LI, C3. rewrite LI in C3. congruence.
    + exists os, ot. auto.
    + destruct C3 as (x & y & C3 & C4). unfold is_link in LI, C3. rewrite LI in C3. congruence.
    + exists os, ot. auto.
Qed.

(** A deletion of a link that is not misfiled removes that link and changes no other.  The links
    that were misfiled because they refer to it no longer are. *)
Lemma L_C83_delete_partial cf tops lops st Ms Mt i os ot :
  let S := split_links cf tops lops in
  unit_env cf tops lops -> slife cf tops lops st Ms Mt -> is_link S st i os ot -> may_touch cf tops lops st Ms Mt i ->
  (forall j s t, is_link S st j s t -> j <> i -> (s = i /\ ~ Ms j) \/ (t = i /\ ~ Mt j) -> separable S st j) ->
  exists st', no_link S st' i /\ frame S st st' i /\
    slife cf tops lops st' (fun j => Ms j /\ forall t, ~ is_link S st j i t) (fun j => Mt j /\ forall s, ~ is_link S st j s i) /\
    calls_once (fun H h x => li_delete S H h [i] st x) st' (mkLink i os ot) nothing.
Proof.
  intros S ENV HL LI MC US. subst S. destruct (slife_inv cf tops lops ENV _ _ _ HL) as (a & sP & tP & K).
  pose proof LI as M. apply (y_link cf tops lops ENV _ _ _ _ _ _ _ _ _ K) in M. pose proof MC as (D & NS & NT).
  apply (y_sep cf tops lops ENV _ _ _ _ _ _ _ K) in D.
  destruct (x_delete cf tops lops ENV st Ms Mt a sP tP i os ot K M D NS NT) as (st2 & K2 & F).
  { intros y s t MY NE UU. apply (y_sep cf tops lops ENV _ _ _ _ _ _ _ K). eapply US; eauto. now apply (y_link cf tops lops ENV _ _ _ _ _ _ _ _ _ K). }
  exists st2. split; [|split; [|split; [|exact F]]].
  - apply (y_none cf tops lops ENV _ _ _ _ _ _ _ K2). rewrite a_delete_map. apply upd_same.
  - intros j J. apply (y_same cf tops lops ENV _ _ _ _ _ _ _ _ _ _ _ _ j K K2). rewrite a_delete_map. now apply upd_other.
  - exact (slife_delete cf tops lops st Ms Mt i unit (fun u _ _ => (u, Continue)) tt st2 _ _ HL (or_intror (conj MC US)) (F _ _ _)).
Qed.

Lemma L_C83_missing cf tops lops st Ms Mt i :
  let S := split_links cf tops lops in
  unit_env cf tops lops -> slife cf tops lops st Ms Mt -> no_link S st i ->
  (forall s t, fails_with (fun H h x => li_update S H h [i] [i; s; t] st x) st (NotExists i)) /\
  fails_with (fun H h x => li_delete S H h [i] st x) st (NotExists i).
Proof.
  intros S ENV HL NL. subst S. destruct (slife_inv cf tops lops ENV _ _ _ HL) as (a & sP & tP & K).
  apply (y_none cf tops lops ENV _ _ _ _ _ _ _ K) in NL. exact (x_none cf tops lops ENV _ _ _ _ _ _ _ K NL).
Qed.

(** Every index is a link or not, and a misfiled link refers to a link. *)
Lemma L_C83_misfiled cf tops lops st Ms Mt :
  let S := split_links cf tops lops in
  unit_env cf tops lops -> slife cf tops lops st Ms Mt ->
  (forall i, linked S st i \/ no_link S st i) /\
  (forall i, Ms i -> exists v t, is_link S st i v t /\ linked S st v) /\
  (forall i, Mt i -> exists s v, is_link S st i s v /\ linked S st v).
Proof.
  intros S ENV HL. subst S. destruct (slife_inv cf tops lops ENV _ _ _ HL) as (a & sP & tP & K).
  split; [|split].
  - intros i. rewrite (y_linked cf tops lops ENV _ _ _ _ _ _ _ K), (y_none cf tops lops ENV _ _ _ _ _ _ _ K).
    destruct (a_map a i); [left; discriminate|now right].
  - intros i M. destruct (x_stray_s cf _ _ _ _ _ _ _ K M) as (v & t & M1 & _ & M2 & _). exists v, t.
    rewrite (y_link cf tops lops ENV _ _ _ _ _ _ _ _ _ K), (y_linked cf tops lops ENV _ _ _ _ _ _ _ K). auto.
  - intros i M. destruct (x_stray_t cf _ _ _ _ _ _ _ K M) as (s & v & M1 & _ & M2 & _). exists s, v.
    rewrite (y_link cf tops lops ENV _ _ _ _ _ _ _ _ _ K), (y_linked cf tops lops ENV _ _ _ _ _ _ _ K). auto.
Qed.

(** count and each see every link, misfiled or not. *)
Lemma L_C83_count_and_each_all cf tops lops st Ms Mt q :
  let S := split_links cf tops lops in let any := c_any cf in
  unit_env cf tops lops -> slife cf tops lops st Ms Mt ->
  q = [] \/ q = [any] \/ q = [any; any] \/ q = [any; any; any] ->
  exists L, all_links S st L /\ li_count S st q = Val (N.of_nat (length L)) /\
    forall H (h : rhandler H) x, li_each S H h q st x = Val (run_handler h L x).
Proof.
  intros S any ENV HL Q. subst S. destruct (slife_inv cf tops lops ENV _ _ _ HL) as (a & sP & tP & K).
  pose proof K as [R W V O FS FT]. pose proof (y_cf cf tops lops ENV) as CF. exists (alinks a). split; [|split].
  - split; [unfold alinks; rewrite <- (Nnat.N2Nat.id (a_top a)); apply sorted_range1_gen|].
    intros i s t. rewrite (y_link cf tops lops ENV _ _ _ _ _ _ _ _ _ K). now apply in_alinks.
  - pose proof (s_total_ok _ _ _ _ _ R W) as T. cbn [li_count split_links]. unfold s_count.
    destruct Q as [->|[->|[->| ->]]]; auto; rewrite (ok_ipart _ CF), ?(ok_spart _ CF), ?(ok_tpart _ CF);
      rewrite ?qget_0, ?qget_1, ?qget_2; cbn [obind]; unfold any;
      rewrite ?(y_virt cf _ _ _ _ _ _ _ K); cbn [obind]; rewrite ?N.eqb_refl; cbn [andb]; exact T.
  - intros H h x. pose proof (s_each_all_ok _ CF _ _ _ _ H h x R V) as T. cbn [li_each split_links]. unfold s_each.
    destruct Q as [->|[->|[->| ->]]]; auto; rewrite (ok_ipart _ CF), ?(ok_spart _ CF), ?(ok_tpart _ CF);
      rewrite ?qget_0, ?qget_1, ?qget_2; cbn [obind]; unfold any, s_each3;
      rewrite ?(y_virt cf _ _ _ _ _ _ _ K); cbn [obind]; rewrite ?N.eqb_refl; cbn [andb]; exact T.
Qed.

(** A query for one index visits that link if it is there and matches. *)
Lemma L_C83_by_index cf tops lops st Ms Mt i q :
  let S := split_links cf tops lops in
  unit_env cf tops lops -> slife cf tops lops st Ms Mt -> i <> c_any cf ->
  q = [i] \/ (exists v, q = [i; v]) \/ (exists s t, q = [i; s; t]) ->
  (forall l, li_get S st i = Val (Some l) -> query_match (c_any cf) q l ->
     (forall H (h : rhandler H) x, li_each S H h q st x = Val (h x l)) /\
     (length q <> 2%nat -> li_count S st q = Val 1)) /\
  ((forall l, li_get S st i = Val (Some l) -> ~ query_match (c_any cf) q l) ->
     (forall H (h : rhandler H) x, li_each S H h q st x = Val (x, Continue)) /\
     (length q <> 2%nat -> li_count S st q = Val 0)).
Proof.
  intros S ENV HL IA Q. subst S. destruct (slife_inv cf tops lops ENV _ _ _ HL) as (a & sP & tP & K).
  pose proof K as [R W V O FS FT]. pose proof (y_cf cf tops lops ENV) as CF.
  pose proof (y_get cf tops lops ENV _ _ _ _ _ _ i K) as G. pose proof G as G'. cbn [li_get split_links] in G'. rewrite G.
  set (any := c_any cf) in *.
  pose proof (s_exists_ok _ CF _ _ _ _ i R V) as EX.
  assert (EI : i =? any = false) by (now apply N.eqb_neq).
  assert (EACH : forall H (h : rhandler H) x, li_each (split_links cf tops lops) H h q st x =
    match a_map a i with
    | Some (s, t) => if match q with
        | [_; v] => (v =? any) || (s =? v) || (t =? v)
        | [_; s'; t'] => ((s' =? any) || (s =? s')) && ((t' =? any) || (t =? t'))
        | _ => true end then Val (h x (mkLink i s t)) else Val (x, Continue)
    | None => Val (x, Continue) end).
  { intros H h x. cbn [li_each split_links]. unfold s_each.
    destruct Q as [->|[(v & ->)|(s' & t' & ->)]]; rewrite (ok_ipart _ CF), ?(ok_spart _ CF), ?(ok_tpart _ CF), ?qget_0, ?qget_1, ?qget_2;
      cbn [obind]; fold any; unfold s_each3; rewrite ?(y_virt cf _ _ _ _ _ _ _ K); cbn [obind]; fold any; rewrite ?EI; unfold s_each_one;
      rewrite G'; destruct (a_map a i) as [[s t]|]; cbn [obind olink l_source l_target]; try reflexivity.
    destruct (N.eqb_spec s' any), (N.eqb_spec t' any); cbn [negb andb orb]; rewrite ?andb_true_r; reflexivity. }
  assert (COUNT : length q <> 2%nat -> li_count (split_links cf tops lops) st q = Val (b2n
    match a_map a i with
    | Some (s, t) => match q with
        | [_; s'; t'] => ((s' =? any) || (s =? s')) && ((t' =? any) || (t =? t'))
        | _ => true end
    | None => false end)).
  { intros LQ. cbn [li_count split_links]. unfold s_count.
    destruct Q as [->|[(v & ->)|(s' & t' & ->)]]; [|cbn in LQ; congruence|];
      rewrite (ok_ipart _ CF), ?(ok_spart _ CF), ?(ok_tpart _ CF), ?qget_0, ?qget_1, ?qget_2;
      cbn [obind]; fold any; rewrite ?(y_virt cf _ _ _ _ _ _ _ K); cbn [obind]; fold any; rewrite ?EI, EX; cbn [obind];
      destruct (a_map a i) as [[s t]|] eqn:E; cbn [obind negb]; try reflexivity.
    pose proof (awf_some _ _ _ W E) as [IR _]. pose proof (sm_len _ _ _ _ _ R). pose proof (sm_dlen _ _ _ _ _ R).
    unfold s_get_data_unchecked. rewrite (s_view_ok _ _ _ _ _ R). cbn [obind]. rewrite rdu_ok by lia. cbn [obind]. rewrite (sm_data _ _ _ _ _ R _ _ E). cbn [fst snd].
    destruct (N.eqb_spec s' any), (N.eqb_spec t' any); cbn [negb andb orb]; rewrite ?andb_true_r; reflexivity. }
  assert (ME : forall s t, query_match any q (mkLink i s t) <-> match q with
        | [_; v] => (v =? any) || (s =? v) || (t =? v)
        | [_; s'; t'] => ((s' =? any) || (s =? s')) && ((t' =? any) || (t =? t'))
        | _ => true end = true).
  { intros s t. destruct Q as [->|[(v & ->)|(s' & t' & ->)]]; cbn [query_match l_index l_source l_target]; unfold part_match;
      rewrite ?andb_true_iff, ?orb_true_iff, ?N.eqb_eq; intuition. }
  split.
  - intros l GL QM. destruct (a_map a i) as [[s t]|]; cbn [olink] in GL; [|discriminate]. injection GL as <-.
    apply ME in QM. split.
    + intros H h x. now rewrite EACH, QM.
    + intros LQ. rewrite (COUNT LQ). destruct Q as [->|[(v & ->)|(s' & t' & ->)]]; [reflexivity|cbn in LQ; congruence|now rewrite QM].
  - intros NQ. destruct (a_map a i) as [[s t]|].
    + specialize (NQ _ eq_refl). rewrite ME in NQ. apply not_true_is_false in NQ. split.
      * intros H h x. now rewrite EACH, NQ.
      * intros LQ. rewrite (COUNT LQ). destruct Q as [->|[(v & ->)|(s' & t' & ->)]]; [discriminate|cbn in LQ; congruence|now rewrite NQ].
    + split; [exact EACH|]. intros LQ. now rewrite (COUNT LQ).
Qed.

(** A query by source or by target visits the links that match, except the misfiled ones. *)
Lemma L_C83_by_source cf tops lops st Ms Mt v :
  let S := split_links cf tops lops in
  unit_env cf tops lops -> slife cf tops lops st Ms Mt -> v <> 0 -> v <> c_any cf ->
  exists L, NoDup L /\
    (forall l, In l L <-> is_link S st (l_index l) (l_source l) (l_target l) /\ l_source l = v /\ ~ Ms (l_index l)) /\
    (forall H (h : rhandler H) x, li_each S H h [c_any cf; v; c_any cf] st x = Val (run_handler h L x)) /\
    (linked S st v -> li_count S st [c_any cf; v; c_any cf] = Val (N.of_nat (length L))).
Proof.
  intros S ENV HL V0 VA. subst S. destruct (slife_inv cf tops lops ENV _ _ _ HL) as (a & sP & tP & K).
  pose proof (y_cf cf tops lops ENV) as CF.
  destruct (y_by_source cf tops lops ENV _ _ _ _ _ _ v K V0) as (L & L1 & L2 & L3 & L4).
  exists L. split; auto. split; auto. split.
  - intros H h x. cbn [li_each split_links]. unfold s_each. rewrite (ok_ipart _ CF), (ok_spart _ CF), (ok_tpart _ CF), qget_0, qget_1, qget_2.
    cbn [obind]. unfold s_each3. rewrite !(y_virt cf _ _ _ _ _ _ _ K). cbn [obind]. rewrite N.eqb_refl.
    destruct (N.eqb_spec v (c_any cf)); [contradiction|]. cbn [andb]. apply L3.
  - intros LV. apply (y_linked cf tops lops ENV _ _ _ _ _ _ _ K) in LV. rewrite <- (L4 LV).
    cbn [li_count split_links]. unfold s_count. rewrite (ok_ipart _ CF), (ok_spart _ CF), (ok_tpart _ CF), qget_0, qget_1, qget_2.
    cbn [obind]. rewrite !(y_virt cf _ _ _ _ _ _ _ K). cbn [obind]. rewrite N.eqb_refl.
    destruct (N.eqb_spec v (c_any cf)); [contradiction|]. cbn [andb].
    assert (VI : isvirt a v = false). { unfold isvirt. destruct (N.eqb_spec v 0); [contradiction|]. destruct (a_map a v); congruence. }
    now rewrite VI.
Qed.
Lemma L_C83_by_target cf tops lops st Ms Mt v :
  let S := split_links cf tops lops in
  unit_env cf tops lops -> slife cf tops lops st Ms Mt -> v <> 0 -> v <> c_any cf ->
  exists L, NoDup L /\
    (forall l, In l L <-> is_link S st (l_index l) (l_source l) (l_target l) /\ l_target l = v /\ ~ Mt (l_index l)) /\
    (forall H (h : rhandler H) x, li_each S H h [c_any cf; c_any cf; v] st x = Val (run_handler h L x)) /\
    li_count S st [c_any cf; c_any cf; v] = Val (N.of_nat (length L)).
Proof.
  intros S ENV HL V0 VA. subst S. destruct (slife_inv cf tops lops ENV _ _ _ HL) as (a & sP & tP & K).
  pose proof (y_cf cf tops lops ENV) as CF.
  destruct (y_by_target cf tops lops ENV _ _ _ _ _ _ v K V0) as (L & L1 & L2 & L3 & L4).
  exists L. split; auto. split; auto. split.
  - intros H h x. cbn [li_each split_links]. unfold s_each. rewrite (ok_ipart _ CF), (ok_spart _ CF), (ok_tpart _ CF), qget_0, qget_1, qget_2.
    cbn [obind]. unfold s_each3. rewrite !(y_virt cf _ _ _ _ _ _ _ K). cbn [obind]. rewrite N.eqb_refl.
    destruct (N.eqb_spec v (c_any cf)); [contradiction|]. cbn [andb]. apply L3.
  - rewrite <- L4.
    cbn [li_count split_links]. unfold s_count. rewrite (ok_ipart _ CF), (ok_spart _ CF), (ok_tpart _ CF), qget_0, qget_1, qget_2.
    cbn [obind]. rewrite !(y_virt cf _ _ _ _ _ _ _ K). cbn [obind]. rewrite N.eqb_refl.
    destruct (N.eqb_spec v (c_any cf)); [contradiction|]. cbn [andb]. reflexivity.
Qed.

(** A query for either end visits the former, then the latter. *)
Lemma L_C83_either_end cf tops lops st Ms Mt v :
  let S := split_links cf tops lops in
  unit_env cf tops lops -> slife cf tops lops st Ms Mt -> v <> 0 -> v <> c_any cf ->
  exists L1 L2, NoDup L1 /\ NoDup L2 /\
    (forall l, In l L1 <-> is_link S st (l_index l) (l_source l) (l_target l) /\ l_source l = v /\ ~ Ms (l_index l)) /\
    (forall l, In l L2 <-> is_link S st (l_index l) (l_source l) (l_target l) /\ l_target l = v /\ ~ Mt (l_index l)) /\
    forall H (h : rhandler H) x, li_each S H h [c_any cf; v] st x = Val (run_handler h (L1 ++ L2) x).
Proof.
  intros S ENV HL V0 VA. pose proof (y_cf cf tops lops ENV) as CF.
  destruct (L_C83_by_source cf tops lops st Ms Mt v ENV HL V0 VA) as (L1 & A1 & A2 & A3 & _).
  destruct (L_C83_by_target cf tops lops st Ms Mt v ENV HL V0 VA) as (L2 & B1 & B2 & B3 & _).
  exists L1, L2. split; auto. split; auto. split; auto. split; auto.
  assert (R1 : forall s t H (h : rhandler H) x, li_each (split_links cf tops lops) H h [c_any cf; s; t] st x = s_each3 cf st h (c_any cf) s t x).
  { intros s t H h x. cbn [li_each split_links]. unfold s_each. rewrite (ok_ipart _ CF), (ok_spart _ CF), (ok_tpart _ CF), qget_0, qget_1, qget_2. reflexivity. }
  intros H h x. specialize (A3 H h x). specialize (B3 H h). rewrite R1 in A3. subst S. cbn [li_each split_links].
  unfold s_each. rewrite (ok_ipart _ CF), qget_0. cbn [obind]. rewrite N.eqb_refl. destruct (N.eqb_spec v (c_any cf)); [contradiction|].
  rewrite A3. cbn [obind]. rewrite run_handler_app. destruct (run_handler h L1 x) as [x1 []]; [rewrite <- R1; apply B3|reflexivity].
Qed.

(** A search for a pair finds a link that has it, unless every such link is misfiled. *)
Lemma L_C83_search cf tops lops st Ms Mt s t :
  let S := split_links cf tops lops in
  unit_env cf tops lops -> slife cf tops lops st Ms Mt -> s <> 0 -> t <> 0 -> s <> c_any cf -> t <> c_any cf ->
  (exists l, is_link S st (l_index l) s t /\ l_source l = s /\ l_target l = t /\
     forall H (h : rhandler H) x, li_each S H h [c_any cf; s; t] st x = Val (h x l)) \/
  ((forall i, is_link S st i s t -> Ms i \/ Mt i) /\
   forall H (h : rhandler H) x, li_each S H h [c_any cf; s; t] st x = Val (x, Continue)).
Proof.
  intros S ENV HL S0 T0 SA TA. subst S. destruct (slife_inv cf tops lops ENV _ _ _ HL) as (a & sP & tP & K).
  pose proof (y_cf cf tops lops ENV) as CF. pose proof K as [R W V O FS FT].
  assert (SR : exists r, s_search st (isvirt a s) (isvirt a t) s t = Val r /\
    ((r = 0 /\ forall i, a_map a i = Some (s, t) -> Ms i \/ Mt i) \/ (r <> 0 /\ a_map a r = Some (s, t)))).
  { assert (FIN : forall r0, r0 = 0 /\ (forall i, a_map a i = Some (s, t) -> Ms i \/ Mt i) \/ a_map a r0 = Some (s, t) ->
              (r0 = 0 /\ forall i, a_map a i = Some (s, t) -> Ms i \/ Mt i) \/ (r0 <> 0 /\ a_map a r0 = Some (s, t))).
    { intros r0 [A|A]; auto. right. split; auto. intros ->. apply (awf_some _ _ _ W) in A. lia. }
    assert (PS : forall i, a_map a i = Some (s, t) -> sP i = place_of a s \/ Ms i).
    { intros i E. destruct (FS i) as [[F1 F2]|(F1 & F2 & F3)]; auto. left. rewrite F1. unfold spl. now rewrite E. }
    assert (PT : forall i, a_map a i = Some (s, t) -> tP i = place_of a t \/ Mt i).
    { intros i E. destruct (FT i) as [[F1 F2]|(F1 & F2 & F3)]; auto. left. rewrite F1. unfold tpl. now rewrite E. }
    assert (PI : forall v, v <> 0 -> isvirt a v = false -> place_of a v = Int v /\ v <= a_top a).
    { intros v V0 E. unfold isvirt in E. destruct (N.eqb_spec v 0); [contradiction|].
      destruct (a_map a v) as [p|] eqn:EV; [|discriminate]. split; [apply place_of_int; repeat split; auto; congruence|].
      apply (awf_some _ _ _ W) in EV. lia. }
    assert (PE : forall v, v <> 0 -> isvirt a v = true -> place_of a v = Ext).
    { intros v V0 E. unfold isvirt in E. destruct (N.eqb_spec v 0); [contradiction|].
      destruct (a_map a v) as [p|] eqn:EV; [discriminate|]. now apply place_of_ext. }
    assert (IS : isvirt a s = false -> exists r, s_is_search st s t = Val r /\
      ((r = 0 /\ forall i, a_map a i = Some (s, t) -> Ms i \/ Mt i) \/ (r <> 0 /\ a_map a r = Some (s, t)))).
    { intros E. destruct (PI _ S0 E) as [P1 P2]. destruct (s_is_search_ok _ _ _ _ _ s t R S0 P2) as (r & E1 & C).
      exists r. split; auto. apply FIN. destruct C as [[-> C]|[_ C]]; auto. left. split; auto.
      intros i EI. destruct (PS i EI) as [X|X]; auto. exfalso. apply (C i); congruence. }
    assert (IT : isvirt a t = false -> exists r, s_it_search st s t = Val r /\
      ((r = 0 /\ forall i, a_map a i = Some (s, t) -> Ms i \/ Mt i) \/ (r <> 0 /\ a_map a r = Some (s, t)))).
    { intros E. destruct (PI _ T0 E) as [P1 P2]. destruct (s_it_search_ok _ _ _ _ _ s t R T0 P2) as (r & E1 & C).
      exists r. split; auto. apply FIN. destruct C as [[-> C]|[_ C]]; auto. left. split; auto.
      intros i EI. destruct (PT i EI) as [X|X]; auto. exfalso. apply (C i); congruence. }
    unfold s_search. destruct (isvirt a s) eqn:VS; [destruct (isvirt a t) eqn:VT; cbn [andb]|cbn [andb]].
    - destruct (s_es_search_ok _ _ _ _ _ s t R) as (r & E1 & C). exists r. split; auto. apply FIN.
      destruct C as [[-> C]|[_ C]]; auto. left. split; auto. intros i EI. destruct (PS i EI) as [X|X]; auto.
      exfalso. apply (C i); auto. rewrite X. now apply PE.
    - now apply IT.
    - destruct (isvirt a t) eqn:VT; [now apply IS|].
      destruct (PI _ S0 VS) as [_ P1]. destruct (PI _ T0 VT) as [_ P2].
      destruct (s_is_walk _ _ _ _ _ s R S0 P1) as (U1 & _ & _ & _ & C1).
      destruct (s_it_walk _ _ _ _ _ t R T0 P2) as (U2 & _ & _ & _ & C2).
      rewrite C1, C2. cbn [obind]. destruct (_ <? _); auto. }
  destruct SR as (r & E & C).
  assert (RED : forall H (h : rhandler H) x, li_each (split_links cf tops lops) H h [c_any cf; s; t] st x =
    if r =? 0 then Val (x, Continue) else
      let* o := s_get_link cf st r in match o with Some lk => Val (h x lk) | None => UB end).
  { intros H h x. cbn [li_each split_links]. unfold s_each. rewrite (ok_ipart _ CF), (ok_spart _ CF), (ok_tpart _ CF), qget_0, qget_1, qget_2.
    cbn [obind]. unfold s_each3. rewrite !(y_virt cf _ _ _ _ _ _ _ K). cbn [obind]. rewrite N.eqb_refl.
    destruct (N.eqb_spec s (c_any cf)); [contradiction|]. destruct (N.eqb_spec t (c_any cf)); [contradiction|]. cbn [andb].
    rewrite E. cbn [obind]. now rewrite (ok_null _ CF). }
  destruct C as [[-> C]|[R0 C]].
  - right. split; [|intros H h x; now rewrite RED]. intros i LI. apply C. now apply (y_link cf tops lops ENV _ _ _ _ _ _ _ _ _ K).
  - left. exists (mkLink r s t). cbn [l_index l_source l_target]. split; [now apply (y_link cf tops lops ENV _ _ _ _ _ _ _ _ _ K)|].
    split; auto. split; auto. intros H h x. rewrite RED. destruct (N.eqb_spec r 0); [contradiction|].
    rewrite (s_get_link_ok _ CF _ _ _ _ _ R V). cbn [obind]. now rewrite C.
Qed.

(** ** A tree that checks what it is asked to detach *)
Fixpoint tree_nodes (fuel : nat) (c : N -> nd) (root : N) : list N :=
  match fuel with
  | O => []
  | Datatypes.S f => if root =? 0 then [] else tree_nodes f c (nl (c root)) ++ root :: tree_nodes f c (nr (c root))
  end.
(** [detach] panics unless the node is in the tree; otherwise as before *)
Definition member_tree (tops : tree_ops) : tree_ops :=
  mkTreeOps (t_attach tops)
    (fun k c r x => if existsb (N.eqb x) (tree_nodes (Datatypes.S (N.to_nat (nz (c r)))) c r) then t_detach tops k c r x else Panic).

Lemma tree_nodes_ok c : forall t fuel root, trep c root t -> (length (elems t) < fuel)%nat -> tree_nodes fuel c root = elems t.
Proof.
  induction t as [|l IHl i r IHr]; intros fuel root R F; (destruct fuel as [|fuel]; [lia|]); cbn [tree_nodes trep] in *.
  - subst root. reflexivity.
  - destruct R as (-> & I0 & _ & RL & RR). destruct (N.eqb_spec i 0); [contradiction|]. cbn [elems] in *.
    rewrite app_length in F. cbn [length] in F. rewrite (IHl fuel _ RL), (IHr fuel _ RR) by lia. reflexivity.
Qed.
Lemma tree_nodes_root c root t : trep c root t -> root <> 0 -> tree_nodes (Datatypes.S (N.to_nat (nz (c root)))) c root = elems t.
Proof.
  intros R R0. apply tree_nodes_ok; auto. destruct t as [|l i r]; cbn [trep] in R; [contradiction|].
  destruct R as (-> & _ & Z & _). rewrite Z. unfold tsize. lia.
Qed.
Lemma member_tree_ok tops : tree_ops_ok tops -> tree_ops_ok (member_tree tops).
Proof.
  intros [A D]. split; [exact A|]. intros k c root t x R ND WS KA I. cbn [t_detach member_tree].
  rewrite (tree_nodes_root _ _ t) by (auto; intros ->; apply trep_zero in R; subst t; exact I).
  assert (E : existsb (N.eqb x) (elems t) = true) by (apply existsb_exists; exists x; split; [exact I|apply N.eqb_refl]).
  rewrite E. now apply (D k c root t x).
Qed.
Lemma member_tree_refuses tops k c root P x : tree_inv k c root P -> ~ P x -> t_detach (member_tree tops) k c root x = Panic.
Proof.
  intros (t & R & ND & WS & EL) NP. cbn [t_detach member_tree].
  assert (E : existsb (N.eqb x) (tree_nodes (Datatypes.S (N.to_nat (nz (c root)))) c root) = false); [|now rewrite E].
  destruct (N.eq_dec root 0) as [->|R0]; [reflexivity|]. rewrite (tree_nodes_root _ _ t) by auto.
  destruct (existsb (N.eqb x) (elems t)) eqn:EX; auto. exfalso. apply existsb_exists in EX as (y & Y1 & Y2).
  apply N.eqb_eq in Y2. subst y. apply NP. now apply EL.
Qed.

Section Stray.
  Variables (cf : cfg) (tops : tree_ops) (lops : list_ops).
  Notation tops' := (member_tree tops).
  Hypothesis ENV : unit_env cf tops' lops.

  Lemma z_detach_is st a sP tP v x : smem cf st a sP tP -> v <> 0 -> a_map a v <> None -> sP x = Ext ->
    s_detach_is tops' st v x = Panic.
  Proof.
    intros R V0 VM X. apply (sm_dom _ _ _ _ _ R) in VM as [VR _]. pose proof (sm_len _ _ _ _ _ R).
    unfold s_detach_is. rewrite rd_ok by lia. cbn [obind]. rewrite (s_view_ok _ _ _ _ _ R). cbn [obind].
    rewrite (member_tree_refuses _ _ _ _ _ x (fo_int _ _ _ _ _ _ (sm_src _ _ _ _ _ R) v V0)); [reflexivity|]. congruence.
  Qed.
  Lemma z_detach_it st a sP tP v x : smem cf st a sP tP -> v <> 0 -> a_map a v <> None -> tP x = Ext ->
    s_detach_it tops' st v x = Panic.
  Proof.
    intros R V0 VM X. apply (sm_dom _ _ _ _ _ R) in VM as [VR _]. pose proof (sm_len _ _ _ _ _ R).
    unfold s_detach_it. rewrite rd_ok by lia. cbn [obind]. rewrite (s_view_ok _ _ _ _ _ R). cbn [obind].
    rewrite (member_tree_refuses _ _ _ _ _ x (fo_int _ _ _ _ _ _ (sm_tgt _ _ _ _ _ R) v V0)); [reflexivity|]. congruence.
  Qed.

  (** Changing the ends of a misfiled link *)
  Lemma z_relink st a sP tP i os ot s t : smem cf st a sP tP -> all_placed a tP -> a_map a i = Some (os, ot) -> detachable a i ->
    (sP i = place_of a os /\ tP i = Ext /\ ot <> 0 /\ a_map a ot <> None) \/ (sP i = Ext /\ os <> 0 /\ a_map a os <> None) ->
    s_relink tops' st i os ot s t = Panic.
  Proof.
    intros R V EM DET [(PS & PT & OT & ON)|(PS & OS & ON)]; unfold s_relink.
    - assert (ST1 : exists st1, s_when (negb (os =? 0)) (fun st0 =>
        let* v := s_is_virtual st0 os in
        if v then s_detach_es tops' st0 i else s_detach_is tops' st0 os i) st = Val st1 /\
        smem cf st1 a (upd sP i Out) tP).
      { unfold s_when. destruct (N.eqb_spec os 0) as [->|OS]; cbn [negb].
        - exists st. split; auto. eapply smem_pl; [| |exact R]; auto.
          intros x. unfold upd. destruct (N.eqb_spec x i) as [->|]; auto.
        - rewrite (s_is_virtual_ok _ _ _ _ _ _ R V). cbn [obind]. unfold isvirt.
          unfold place_of in PS. destruct (N.eqb_spec os 0); [congruence|].
          destruct (a_map a os).
          + destruct (s_detach_is_ok cf tops' (y_tok cf tops' lops ENV) _ _ _ _ _ _ R DET PS) as (st1 & E & R1 & _). eauto.
          + destruct (s_detach_es_ok cf tops' (y_tok cf tops' lops ENV) _ _ _ _ _ R DET PS) as (st1 & E & R1 & _). eauto. }
      destruct ST1 as (st1 & E1 & R1). rewrite E1. cbn [obind]. clear E1.
      unfold s_when at 1. destruct (N.eqb_spec ot 0); [contradiction|]. cbn [negb].
      rewrite (s_is_virtual_ok _ _ _ _ _ _ R1 V). cbn [obind]. unfold isvirt. destruct (N.eqb_spec ot 0); [contradiction|].
      destruct (a_map a ot) eqn:EO; [|congruence]. rewrite (z_detach_it _ _ _ _ ot i R1); auto. congruence.
    - unfold s_when at 1. destruct (N.eqb_spec os 0); [contradiction|]. cbn [negb].
      rewrite (s_is_virtual_ok _ _ _ _ _ _ R V). cbn [obind]. unfold isvirt. destruct (N.eqb_spec os 0); [contradiction|].
      destruct (a_map a os) eqn:EO; [|congruence]. rewrite (z_detach_is _ _ _ _ os i R); auto. congruence.
  Qed.
  Lemma z_update st a sP tP i os ot s t H (h : whandler H) x : smem cf st a sP tP -> all_placed a tP ->
    a_map a i = Some (os, ot) -> detachable a i ->
    (sP i = place_of a os /\ tP i = Ext /\ ot <> 0 /\ a_map a ot <> None) \/ (sP i = Ext /\ os <> 0 /\ a_map a os <> None) ->
    s_update cf tops' h [i] [i; s; t] st x = Panic.
  Proof.
    intros R V EM DET ST. unfold s_update. change (qget [i] 0) with (Val i).
    change (qget [i; s; t] 1) with (Val s). change (qget [i; s; t] 2) with (Val t). cbn [obind].
    rewrite (s_get_link_ok _ (y_cf cf tops' lops ENV) _ _ _ _ _ R V), EM. cbn [obind olink l_source l_target].
    rewrite (z_relink _ _ _ _ i os ot s t R V EM DET ST). reflexivity.
  Qed.
End Stray.

(** The store takes a misfiled link out of a tree it is not in, whenever it is changed or
    deleted: with a tree that checks this, both calls panic. *)
Lemma L_C83_stray cf tops lops st Ms Mt i :
  let tops' := member_tree tops in let S := split_links cf tops' lops in
  unit_env cf tops lops -> slife cf tops' lops st Ms Mt -> separable S st i -> Ms i \/ Mt i ->
  unit_env cf tops' lops /\
  (forall s t H (h : whandler H) x, li_update S H h [i] [i; s; t] st x = Panic) /\
  ((forall j s t, is_link S st j s t -> j <> i -> (s = i /\ ~ Ms j) \/ (t = i /\ ~ Mt j) -> separable S st j) ->
   forall H (h : whandler H) x, li_delete S H h [i] st x = Panic).
Proof.
  intros tops' S ENV0 HL SE MI.
  assert (ENV : unit_env cf tops' lops).
  { destruct ENV0 as (E1 & E2 & E3). split; [exact E1|]. split; [apply member_tree_ok; exact E2|exact E3]. }
  split; [exact ENV|]. subst S. destruct (slife_inv cf tops' lops ENV _ _ _ HL) as (a & sP & tP & K).
  pose proof K as [R W V O FS FT]. apply (y_sep cf tops' lops ENV _ _ _ _ _ _ _ K) in SE.
  assert (X : exists os ot, a_map a i = Some (os, ot) /\
    ((sP i = place_of a os /\ tP i = Ext /\ ot <> 0 /\ a_map a ot <> None) \/ (sP i = Ext /\ os <> 0 /\ a_map a os <> None))).
  { destruct (FS i) as [[F1 F2]|(F1 & (v & F2) & F3)].
    - destruct MI as [MI|MI]; [contradiction|]. destruct (x_stray_t cf _ _ _ _ _ _ _ K MI) as (s & v & M1 & M2 & M3 & M4).
      exists s, v. split; auto. left. split; auto. rewrite F1. unfold spl. now rewrite M1.
    - apply spl_int in F2 as (t & F2 & F4 & F5). exists v, t. split; auto. }
  destruct X as (os & ot & EM & ST). split.
  - intros s t H h x. exact (z_update cf tops lops ENV _ _ _ _ i os ot s t H h x R V EM SE ST).
  - intros US H h x. cbn [li_delete split_links]. unfold s_delete. change (qget [i] 0) with (Val i). cbn [obind].
    rewrite (s_get_link_ok _ (y_cf cf tops' lops ENV) _ _ _ _ _ R V), EM. cbn [obind olink].
    assert (EN : a_map a i <> None) by congruence.
    destruct (s_resolve_internal_gen cf (y_cf cf tops' lops ENV) tops' (y_tok cf tops' lops ENV) _ _ _ _ i R V EN) as (st0 & E0 & R0 & _).
    { intros j NE UU. destruct (a_map a j) as [[js jt]|] eqn:EJ.
      2:{ exfalso. destruct UU as [U|U]; [pose proof (sm_sp _ _ _ _ _ R j) as Z|pose proof (sm_tp _ _ _ _ _ R j) as Z]; rewrite U in Z;
          destruct Z as ((z & Z) & _); congruence. }
      apply (y_sep cf tops' lops ENV _ _ _ _ _ _ _ K). apply (US j js jt); [now apply (y_link cf tops' lops ENV _ _ _ _ _ _ _ _ _ K)|exact NE|].
      destruct UU as [U|U]; [left; pose proof (sm_sp _ _ _ _ _ R j) as Z|right; pose proof (sm_tp _ _ _ _ _ R j) as Z]; rewrite U in Z;
        destruct Z as ((z & Z) & _).
      - split; [congruence|]. intros M. destruct (x_stray_s cf _ _ _ _ _ _ _ K M) as (? & ? & _ & _ & _ & M4). congruence.
      - split; [congruence|]. intros M. destruct (x_stray_t cf _ _ _ _ _ _ _ K M) as (? & ? & _ & _ & _ & M4). congruence. }
    rewrite E0. cbn [obind].
    erewrite (z_update cf tops lops ENV st0 a (SplitWrites.moved i sP) (SplitWrites.moved i tP) i os ot 0 0 unit); [reflexivity|exact R0| |exact EM|exact SE|].
    + exact (moved_placed _ i _ V).
    + unfold SplitWrites.moved. rewrite !N.eqb_refl. exact ST.
Qed.

(** ** Examples *)
Lemma slife_small cf tops lops st Ms Mt j : unit_env cf tops lops -> slife cf tops lops st Ms Mt ->
  linked (split_links cf tops lops) st j -> 1 <= j <= sh_alloc st.
Proof.
  intros ENV HL LI. destruct (slife_inv cf tops lops ENV _ _ _ HL) as (a & sP & tP & K).
  apply (y_linked cf tops lops ENV _ _ _ _ _ _ _ K) in LI. pose proof (xi_mem _ _ _ _ _ _ _ K) as R.
  rewrite (sm_alloc _ _ _ _ _ R). now apply (sm_dom _ _ _ _ _ R).
Qed.
Fixpoint pairs_in (U : LinksI sst) (st : sst) (n : nat) : list link :=
  match n with
  | O => []
  | Datatypes.S n' => match li_get U st (N.of_nat n) with Val (Some lk) => [lk] | _ => [] end ++ pairs_in U st n'
  end.
Lemma pairs_in_in U st : forall n i s t, is_link U st i s t -> 1 <= i <= N.of_nat n -> In (mkLink i s t) (pairs_in U st n).
Proof.
  induction n as [|n IH]; intros i s t LI R; [lia|]. cbn [pairs_in]. apply in_or_app.
  destruct (N.eq_dec i (N.of_nat (Datatypes.S n))) as [->|NE].
  - left. unfold is_link in LI. rewrite LI. now left.
  - right. apply IH; auto. lia.
Qed.
(** all the links of a store that satisfy nothing but what is computed *)
Lemma ex_all tops lops st Ms Mt L : unit_env ex_cf tops lops -> slife ex_cf tops lops st Ms Mt ->
  pairs_in (split_links ex_cf tops lops) st (N.to_nat (sh_alloc st)) = L ->
  forall i s t, is_link (split_links ex_cf tops lops) st i s t -> In (mkLink i s t) L.
Proof.
  intros ENV HL <- i s t LI. apply pairs_in_in; auto. rewrite Nnat.N2Nat.id.
  eapply slife_small; eauto. exists s, t. exact LI.
Qed.
Definition lone (L : list link) (lk : link) : bool :=
  forallb (fun k => negb ((l_source k =? l_source lk) && (l_target k =? l_target lk)) || (l_index k =? l_index lk)) L.
Lemma ex_lone tops lops st Ms Mt L i s t : unit_env ex_cf tops lops -> slife ex_cf tops lops st Ms Mt ->
  pairs_in (split_links ex_cf tops lops) st (N.to_nat (sh_alloc st)) = L ->
  is_link (split_links ex_cf tops lops) st i s t -> lone L (mkLink i s t) = true ->
  separable (split_links ex_cf tops lops) st i.
Proof.
  intros ENV HL EL LI F. right. intros j x y L1 L2.
  assert (E : (x, y) = (s, t)) by (unfold is_link in *; congruence). injection E as -> ->.
  unfold lone in F. rewrite forallb_forall in F. specialize (F _ (ex_all _ _ _ _ _ _ ENV HL EL _ _ _ L2)).
  cbn [l_index l_source l_target] in F. rewrite !N.eqb_refl in F. cbn [andb negb orb] in F. now apply N.eqb_eq.
Qed.

(** Link 1 refers to index 3, link 2 to itself and to 1; then index 3 is given out. *)
Definition ex_open : list cmd := [Cr; Up 1 3 3; Cr; Up 2 2 1].
Definition ex_more (tops : tree_ops) (l : list cmd) : sst :=
  match run (split_links ex_cf tops ref_list_ops) l ex_sstart with Some st => st | None => ex_sstart end.
Definition one (j : N) : Prop := j = 1.

Lemma ex_env_member : unit_env ex_cf (member_tree ref_tree_ops) ref_list_ops.
Proof. destruct ex_env as (E1 & E2 & E3). split; [exact E1|]. split; [apply member_tree_ok; exact E2|exact E3]. Qed.

Lemma ex_open_life tops : unit_env ex_cf tops ref_list_ops ->
  let S := split_links ex_cf tops ref_list_ops in
  match run S ex_open ex_sstart with Some _ => true | None => false end = true ->
  li_create S unit cont [] (ex_more tops ex_open) tt = Val (ex_more tops (ex_open ++ [Cr]), tt, Ok Continue) ->
  pairs_in S (ex_more tops ex_open) (N.to_nat (sh_alloc (ex_more tops ex_open))) = [mkLink 2 2 1; mkLink 1 3 3] ->
  is_link S (ex_more tops ex_open) 1 3 3 -> is_link S (ex_more tops ex_open) 2 2 1 ->
  no_link S (ex_more tops ex_open) 3 -> linked S (ex_more tops (ex_open ++ [Cr])) 3 ->
  slife ex_cf tops ref_list_ops (ex_more tops (ex_open ++ [Cr])) one one.
Proof.
  intros ENV S E C AL L1 L2 N3 L3.
  assert (HH : exists d, s_hist ex_cf tops ref_list_ops (ex_more tops ex_open) d).
  { unfold ex_more. fold S. destruct (run S ex_open ex_sstart) as [st|] eqn:RU; [|discriminate].
    destruct (srun_ok ex_cf tops ref_list_ops ENV ex_open ex_sstart a_empty [] st) as (d & HH & _); auto;
      [apply histc_start; exact ex_s_start|exact (s_start_inv _ _ _ ENV _ ex_s_start)|exists d; exact HH]. }
  destruct HH as (d & HH). pose proof (slife_start _ _ _ _ d HH) as HL. pose proof (ex_all _ _ _ _ _ _ ENV HL AL) as AL'.
  assert (X : forall j i s t, no_link S (ex_more tops ex_open) i -> is_link S (ex_more tops ex_open) j s t -> s = i \/ t = i -> j = 1).
  { intros j i s t NI LJ K. destruct (AL' _ _ _ LJ) as [Q|[Q|[]]]; injection Q as <- <- <-; [|reflexivity]. exfalso.
    unfold no_link in NI. unfold is_link in L1, L2. destruct K as [<-|<-]; congruence. }
  eapply slife_same; [exact (slife_create _ _ _ _ _ _ _ _ _ _ _ _ _ HL C)| |]; unfold one; intros j; split.
  - intros [[]|(i & t & D1 & D2 & D3)]. eapply X; eauto.
  - intros ->. right. exists 3, 3. auto.
  - intros [[]|(i & t & D1 & D2 & D3)]. eapply X; eauto.
  - intros ->. right. exists 3, 3. auto.
Qed.

Definition ex_mis : sst := ex_more ref_tree_ops (ex_open ++ [Cr]).
Lemma ex_mis_life : slife ex_cf ref_tree_ops ref_list_ops ex_mis one one.
Proof.
  apply ex_open_life; try exact ex_env; try (unfold is_link, no_link; vm_compute; reflexivity).
  exists 0, 0. unfold is_link. vm_compute; reflexivity.
Qed.
Definition ex_mis' : sst := ex_more (member_tree ref_tree_ops) (ex_open ++ [Cr]).
Lemma ex_mis_life' : slife ex_cf (member_tree ref_tree_ops) ref_list_ops ex_mis' one one.
Proof.
  apply ex_open_life; try exact ex_env_member; try (unfold is_link, no_link; vm_compute; reflexivity).
  exists 0, 0. unfold is_link. vm_compute; reflexivity.
Qed.

Lemma L_C83_nonvacuous :
  (exists st Ms Mt, slife ex_cf ref_tree_ops ref_list_ops st Ms Mt /\ Ms 1 /\ Mt 1 /\ is_link ex_S st 1 3 3 /\
     is_link ex_S st 2 2 1 /\ may_touch ex_cf ref_tree_ops ref_list_ops st Ms Mt 2 /\
     is_link ex_S st 3 0 0 /\ may_touch ex_cf ref_tree_ops ref_list_ops st Ms Mt 3 /\
     (forall j s t, is_link ex_S st j s t -> j <> 3 -> (s = 3 /\ ~ Ms j) \/ (t = 3 /\ ~ Mt j) -> separable ex_S st j) /\
     no_link ex_S st 4) /\
  (exists st Ms Mt, let S := split_links ex_cf (member_tree ref_tree_ops) ref_list_ops in
     slife ex_cf (member_tree ref_tree_ops) ref_list_ops st Ms Mt /\ separable S st 1 /\ Ms 1 /\
     forall j s t, is_link S st j s t -> j <> 1 -> (s = 1 /\ ~ Ms j) \/ (t = 1 /\ ~ Mt j) -> separable S st j) /\
  cfg_room ex_cf.
Proof.
  split; [|split].
  - pose proof ex_mis_life as HL. exists ex_mis, one, one.
    assert (AL : pairs_in ex_S ex_mis (N.to_nat (sh_alloc ex_mis)) = [mkLink 3 0 0; mkLink 2 2 1; mkLink 1 3 3]) by (vm_compute; reflexivity).
    assert (L1 : is_link ex_S ex_mis 1 3 3) by (unfold is_link; vm_compute; reflexivity).
    assert (L2 : is_link ex_S ex_mis 2 2 1) by (unfold is_link; vm_compute; reflexivity).
    assert (L3 : is_link ex_S ex_mis 3 0 0) by (unfold is_link; vm_compute; reflexivity).
    split; [exact HL|]. split; [reflexivity|]. split; [reflexivity|]. split; [exact L1|]. split; [exact L2|].
    split; [|split; [exact L3|split; [|split]]].
    + split; [|split; intros Z; discriminate Z]. eapply ex_lone; [exact ex_env|exact HL|exact AL|exact L2|vm_compute; reflexivity].
    + split; [|split; intros Z; discriminate Z]. eapply ex_lone; [exact ex_env|exact HL|exact AL|exact L3|vm_compute; reflexivity].
    + intros j s t LJ NE K. exfalso. destruct (ex_all _ _ _ _ _ _ ex_env HL AL _ _ _ LJ) as [Q|[Q|[Q|[]]]]; injection Q as <- <- <-.
      * now apply NE.
      * clear -K. destruct K as [[K _]|[K _]]; discriminate K.
      * clear -K. destruct K as [[_ K]|[_ K]]; apply K; reflexivity.
    + unfold no_link. vm_compute; reflexivity.
  - pose proof ex_mis_life' as HL. exists ex_mis', one, one. cbv zeta.
    assert (AL : pairs_in (split_links ex_cf (member_tree ref_tree_ops) ref_list_ops) ex_mis' (N.to_nat (sh_alloc ex_mis')) =
      [mkLink 3 0 0; mkLink 2 2 1; mkLink 1 3 3]) by (vm_compute; reflexivity).
    assert (L1 : is_link (split_links ex_cf (member_tree ref_tree_ops) ref_list_ops) ex_mis' 1 3 3) by (unfold is_link; vm_compute; reflexivity).
    assert (L2 : is_link (split_links ex_cf (member_tree ref_tree_ops) ref_list_ops) ex_mis' 2 2 1) by (unfold is_link; vm_compute; reflexivity).
    split; [exact HL|]. split; [|split; [reflexivity|]].
    + eapply ex_lone; [exact ex_env_member|exact HL|exact AL|exact L1|vm_compute; reflexivity].
    + intros j s t LJ NE K. destruct (ex_all _ _ _ _ _ _ ex_env_member HL AL _ _ _ LJ) as [Q|[Q|[Q|[]]]]; injection Q as <- <- <-.
      * exfalso. clear -K. destruct K as [[K _]|[K _]]; discriminate K.
      * eapply ex_lone; [exact ex_env_member|exact HL|exact AL|exact L2|vm_compute; reflexivity].
      * now elim NE.
  - vm_compute. repeat split; discriminate.
Qed.

(** With trees that do not check, the deletion of a misfiled link returns normally, and the
    deleted link is still visited, with ends it never had. *)
Lemma L_C83_refuted : exists st Ms Mt st',
  slife ex_cf ref_tree_ops ref_list_ops st Ms Mt /\ is_link ex_S st 1 3 3 /\ separable ex_S st 1 /\ Ms 1 /\ Mt 1 /\
  li_delete ex_S unit cont [1] st tt = Val (st', tt, Ok Continue) /\
  no_link ex_S st' 1 /\ li_count ex_S st' [] = Val 2 /\
  li_each ex_S _ (fun v l => (v ++ [l], Continue)) [200; 1; 200] st' [] = Val ([mkLink 1 1 1], Continue).
Proof.
  pose proof ex_mis_life as HL.
  exists ex_mis, one, one, (match li_delete ex_S unit cont [1] ex_mis tt with Val (st', _, _) => st' | _ => ex_sstart end).
  assert (AL : pairs_in ex_S ex_mis (N.to_nat (sh_alloc ex_mis)) = [mkLink 3 0 0; mkLink 2 2 1; mkLink 1 3 3]) by (vm_compute; reflexivity).
  assert (L1 : is_link ex_S ex_mis 1 3 3) by (unfold is_link; vm_compute; reflexivity).
  split; [exact HL|]. split; [exact L1|].
  split; [eapply ex_lone; [exact ex_env|exact HL|exact AL|exact L1|vm_compute; reflexivity]|].
  split; [reflexivity|]. split; [reflexivity|]. split; [vm_compute; reflexivity|]. unfold no_link.
  split; [vm_compute; reflexivity|]. split; vm_compute; reflexivity.
Qed.
