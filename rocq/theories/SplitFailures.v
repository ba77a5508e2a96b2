(** What the two-memory store does on every call outside the discipline of SplitHist.v: the
    failures shown by examples in SplitClaims.v happen always (proofs; the statements are
    repeated in PropSplitFailures.v). *)
From Coq Require Import NArith List Bool Lia Permutation Sorted.
From Verif Require Import Base Trees Lists TreeInv Spec Iface UnitModel UnitInv UnitOps UnitLinks LinkModel SplitModel Forest
  SplitInv SplitReads SplitOps SplitWrites SplitLinks Doublets Obs DoubletsOK Hist Claims TreeImpl UnitHist SplitHist
  SplitClaims SplitCrash SplitCrashClaims DefaultClaims SplitDefaults.
Import ListNotations.
Open Scope N_scope.

(** Where an update of link [i] with the source [os] files a link by its new end [v]: a link
    that had a source is taken for an unused index while it is in no tree, and so is filed
    with the outer references when it refers to itself. *)
Definition filed (a : astate) (i os v : N) : place :=
  if (v =? i) && negb (os =? 0) then Ext else place_of a v.

Section F.
  Variables (cf : cfg) (tops : tree_ops) (lops : list_ops).
  Hypothesis ENV : unit_env cf tops lops.
  Notation SL := (split_links cf tops lops).
  Let CF : cfg_ok cf := proj1 ENV.
  Let TOK : tree_ops_ok tops := proj1 (proj2 ENV).

  Lemma s_relink_any st a sP tP i os ot s t :
    smem cf st a sP tP -> all_placed a tP -> a_map a i = Some (os, ot) -> detachable a i ->
    sP i = place_of a os -> tP i = place_of a ot ->
    exists st', s_relink tops st i os ot s t = Val st' /\
      smem cf st' (a_update a i s t) (upd sP i (filed a i os s)) (upd tP i (filed a i os t)) /\ same_mem st st'.
  Proof.
    intros R V EM DET PS PT.
    destruct (sm_range cf _ _ _ _ _ _ R EM) as [IR IF].
    assert (I0 : i <> 0) by lia.
    unfold s_relink.
    assert (ST1 : exists st1, s_when (negb (os =? 0)) (fun st0 =>
        let* v := s_is_virtual st0 os in
        if v then s_detach_es tops st0 i else s_detach_is tops st0 os i) st = Val st1 /\
        smem cf st1 a (upd sP i Out) tP /\ same_mem st st1).
    { unfold s_when. destruct (N.eqb_spec os 0) as [->|OS]; cbn [negb].
      - exists st. split; auto. split; [|apply same_mem_refl]. eapply smem_pl; [| |exact R]; auto.
        intros x. unfold upd. destruct (N.eqb_spec x i) as [->|]; auto.
      - rewrite (s_is_virtual_ok cf _ _ _ _ _ R V). cbn [obind]. unfold isvirt.
        unfold place_of in PS. destruct (N.eqb_spec os 0); [congruence|].
        destruct (a_map a os); [eapply s_detach_is_ok; eauto|eapply s_detach_es_ok; eauto]. }
    destruct ST1 as (st1 & E1 & R1 & M1). rewrite E1. cbn [obind]. clear E1.
    assert (ST2 : exists st2, s_when (negb (ot =? 0)) (fun st0 =>
        let* v := s_is_virtual st0 ot in
        if v then s_detach_et tops st0 i else s_detach_it tops st0 ot i) st1 = Val st2 /\
        smem cf st2 a (upd sP i Out) (upd tP i Out) /\ same_mem st st2).
    { unfold s_when. destruct (N.eqb_spec ot 0) as [->|OT]; cbn [negb].
      - exists st1. split; auto. split; [|exact M1]. eapply smem_pl; [| |exact R1]; auto.
        intros x. unfold upd. destruct (N.eqb_spec x i) as [->|]; auto.
      - rewrite (s_is_virtual_ok cf _ _ _ _ _ R1 V). cbn [obind]. unfold isvirt.
        unfold place_of in PT. destruct (N.eqb_spec ot 0); [congruence|].
        destruct (a_map a ot).
        + destruct (s_detach_it_ok cf tops TOK _ _ _ _ _ _ R1 DET PT) as (st2 & E & R2 & M2). exists st2. split; auto. split; auto.
          eapply same_mem_trans; eauto.
        + destruct (s_detach_et_ok cf tops TOK _ _ _ _ _ R1 DET PT) as (st2 & E & R2 & M2). exists st2. split; auto. split; auto.
          eapply same_mem_trans; eauto. }
    destruct ST2 as (st2 & E2 & R2 & M2). rewrite E2. cbn [obind]. clear E2 st1 R1 M1.
    set (vt := fun v => match filed a i os v with Ext => true | _ => false end).
    assert (VIRT : forall v, s_is_virtual st2 v = Val (if v =? 0 then isvirt a 0 else vt v)).
    { intros v. unfold s_is_virtual, vt, filed, isvirt. destruct (N.eqb_spec v 0) as [->|V0]; [eapply s_is_unused_0; eauto|].
      destruct (N.eqb_spec v i) as [->|NE]; cbn [andb].
      - destruct (N.eqb_spec os 0) as [->|OS]; cbn [negb].
        + rewrite (s_is_unused_ok cf _ _ _ _ i R2 V0) by (intros s' t' E; left; congruence). f_equal. unfold place_of.
          destruct (N.eqb_spec i 0); [contradiction|]. destruct (a_map a i); auto.
        + apply (hidden_unused cf st2 a (upd sP i Out) (upd tP i Out) i R2). split; [eauto|]. split; [apply upd_same|].
          intros v s' t' NE E. rewrite upd_other by auto. eapply V; eauto.
      - rewrite (s_is_unused_ok cf _ _ _ _ v R2 V0).
        + f_equal. unfold place_of. destruct (N.eqb_spec v 0); [contradiction|]. destruct (a_map a v); auto.
        + intros s' t' E. rewrite upd_other by auto. eapply V; eauto. }
    rewrite (VIRT s), (VIRT t) by auto. cbn [obind].
    rewrite (s_get_data_ok cf _ _ _ _ _ R2) by lia. cbn [obind].
    set (a' := a_update a i s t).
    assert (R3 := smem_write cf _ _ _ _ i _ s t R2 EM (upd_same _ _ _ _) (upd_same _ _ _ _)). fold a' in R3.
    set (st3 := s_set_data st2 _) in *.
    assert (M3 : same_mem st st3) by exact M2.
    assert (EM' : a_map a' i = Some (s, t)) by (cbn; apply upd_same).
    assert (DM : forall v, a_map a' v = None <-> a_map a v = None).
    { intros v. cbn [a' a_map a_update]. unfold upd. destruct (N.eqb_spec v i) as [->|]; [|tauto]. split; congruence. }
    assert (F0 : filed a i os 0 = Out).
    { unfold filed. destruct (N.eqb_spec 0 i); [congruence|]. reflexivity. }
    assert (FI : forall v w, filed a i os v = Int w -> v = w /\ v <> 0 /\ a_map a v <> None).
    { intros v w. unfold filed. destruct ((v =? i) && _); [discriminate|]. apply place_of_int. }
    assert (FO : forall v, filed a i os v = Out -> v = 0).
    { intros v. unfold filed. destruct ((v =? i) && _); [discriminate|]. unfold place_of.
      destruct (N.eqb_spec v 0); auto. destruct (a_map a v); discriminate. }
    assert (ST4 : exists st4, s_when (negb (s =? 0)) (fun st0 =>
        if (if s =? 0 then isvirt a 0 else vt s) then s_attach_es tops st0 i else s_attach_is tops st0 s i) st3 = Val st4 /\
        smem cf st4 a' (upd sP i (filed a i os s)) (upd tP i Out) /\ same_mem st st4).
    { unfold s_when. destruct (N.eqb_spec s 0) as [->|S0]; cbn [negb].
      - rewrite F0. exists st3. auto.
      - assert (UU : forall p x, upd (upd sP i Out) i p x = upd sP i p x).
        { intros p x. unfold upd. destruct (x =? i); auto. }
        unfold vt. destruct (filed a i os s) as [| |w] eqn:ES; [apply FO in ES; contradiction| |].
        + destruct (s_attach_es_ok cf tops TOK st3 a' _ _ i R3) as (st4 & E4 & R4 & M4).
          { exists s, t. auto. }
          { apply upd_same. }
          exists st4. split; auto. split; [|eapply same_mem_trans; eauto].
          eapply smem_pl; [| |exact R4]; auto.
        + apply FI in ES as (<- & _ & ES).
          destruct (s_attach_is_ok cf tops TOK st3 a' _ _ s t i R3 EM' S0) as (st4 & E4 & R4 & M4).
          { rewrite DM. congruence. }
          { apply upd_same. }
          exists st4. split; auto. split; [|eapply same_mem_trans; eauto].
          eapply smem_pl; [| |exact R4]; auto. }
    destruct ST4 as (st4 & E4 & R4 & M4). rewrite E4. cbn [obind]. clear E4.
    unfold s_when. destruct (N.eqb_spec t 0) as [->|T0]; cbn [negb].
    - rewrite F0. exists st4. auto.
    - assert (UU : forall p x, upd (upd tP i Out) i p x = upd tP i p x).
      { intros p x. unfold upd. destruct (x =? i); auto. }
      unfold vt. destruct (filed a i os t) as [| |w] eqn:ES; [apply FO in ES; contradiction| |].
      + destruct (s_attach_et_ok cf tops TOK st4 a' _ _ i R4) as (st5 & E5 & R5 & M5).
        { exists s, t. auto. }
        { apply upd_same. }
        exists st5. split; auto. split; [|eapply same_mem_trans; eauto].
        eapply smem_pl; [| |exact R5]; auto.
      + apply FI in ES as (<- & _ & ES).
        destruct (s_attach_it_ok cf tops TOK st4 a' _ _ t s i R4 EM' T0) as (st5 & E5 & R5 & M5).
        { rewrite DM. congruence. }
        { apply upd_same. }
        exists st5. split; auto. split; [|eapply same_mem_trans; eauto].
        eapply smem_pl; [| |exact R5]; auto.
  Qed.
End F.

(** An update of any link of a store, in the discipline or not. *)
Section U.
  Variables (cf : cfg) (tops : tree_ops) (lops : list_ops).
  Hypothesis ENV : unit_env cf tops lops.
  Notation SL := (split_links cf tops lops).
  Let CF : cfg_ok cf := proj1 ENV.
  Let OK : links_ok cf (split_spec cf) SL (srep cf) := f_ok cf tops lops ENV.

  Lemma update_any st a i os ot s t : srep cf st a -> a_map a i = Some (os, ot) -> detachable a i ->
    exists st', smem cf st' (a_update a i s t) (upd (spl a) i (filed a i os s)) (upd (tpl a) i (filed a i os t)) /\
      calls_once (fun H h x => s_update cf tops h [i] [i; s; t] st x) st' (mkLink i os ot) (mkLink i s t).
  Proof.
    intros K M DET. destruct K as [(R & W & VV) O]. pose proof (all_placed_tpl a VV) as V.
    destruct (s_relink_any cf tops lops ENV st a _ _ i os ot s t R V M DET) as (st' & E & R' & _).
    { unfold spl. now rewrite M. }
    { unfold tpl. now rewrite M. }
    exists st'. split; auto. intros H h x. unfold s_update.
    change (qget [i] 0) with (Val i). change (qget [i; s; t] 1) with (Val s). change (qget [i; s; t] 2) with (Val t).
    cbn [obind]. rewrite (s_get_link_ok cf CF _ _ _ _ i R V), M. cbn [obind olink l_source l_target]. rewrite E. cbn [obind].
    destruct (h x (mkLink i os ot) (mkLink i s t)); reflexivity.
  Qed.

  Lemma placed_after a i s t p os : visible a -> a_map a i = Some p -> t <> 0 \/ s = 0 ->
    all_placed (a_update a i s t) (upd (tpl a) i (filed a i os t)).
  Proof.
    intros VV M TS v x y E. cbn [a_map a_update] in E. unfold upd in *. destruct (N.eqb_spec v i) as [->|NE].
    - injection E as <- <-. destruct TS as [T0| ->]; [right|now left]. unfold filed.
      destruct ((t =? i) && negb (os =? 0)); [discriminate|]. rewrite place_of_out. auto.
    - eapply all_placed_tpl; eauto.
  Qed.
  Lemma hidden_after a i s p os : visible a -> a_map a i = Some p -> i <> 0 -> s <> 0 ->
    hidden (a_update a i s 0) (upd (tpl a) i (filed a i os 0)) i.
  Proof.
    intros VV M I0 S0. split; [|split].
    - exists s, 0. split; auto. cbn. apply upd_same.
    - rewrite upd_same. unfold filed. destruct (N.eqb_spec 0 i); [congruence|reflexivity].
    - intros v x y NE E. cbn [a_map a_update] in E. rewrite upd_other in E by auto. rewrite upd_other by auto.
      eapply all_placed_tpl; eauto.
  Qed.
End U.

Ltac openq CF := unfold s_count, s_each, s_each3, qget; rewrite (ok_ipart _ CF), ?(ok_spart _ CF), ?(ok_tpart _ CF);
  change (N.to_nat 0) with 0%nat; change (N.to_nat 1) with 1%nat; change (N.to_nat 2) with 2%nat; cbn [nth_error obind].

(** * C26 *)
(** Whatever the link and whatever the source, the update to a null target reports success
    and the link is gone: it can no longer be read, updated or deleted, it is not visited,
    and it is still counted. *)
Lemma L_C26_null_target_always_lost cf tops lops st d i os ot s :
  let SL := split_links cf tops lops in
  unit_env cf tops lops -> s_hist cf tops lops st d -> is_link SL st i os ot -> separable SL st i -> s <> 0 ->
  exists st', d_update SL i s 0 st = Val (st', Ok i) /\
    calls_once (fun H h x => s_update cf tops h [i] [i; s; 0] st x) st' (mkLink i os ot) (mkLink i s 0) /\
    frame SL st st' i /\ no_link SL st' i /\
    (forall s' t', d_update SL i s' t' st' = Val (st', Err (NotExists i))) /\
    d_delete SL i st' = Val (st', Err (NotExists i)) /\
    exists n, s_count cf st [] = Val (n + 1) /\ s_count cf st' [] = Val (n + 1) /\
      s_each cf (fun m _ => (m + 1, Continue)) [] st' 0 = Val (n, Continue).
Proof.
  intros SL ENV HH L SE S0. sopen a K D. pose proof (f_ok _ _ _ ENV) as OK. pose proof (lo_wf _ _ _ _ OK _ _ K) as W.
  apply (ob_link cf _ _ _ OK _ _ _ _ _ K) in L. apply (ob_sep cf _ _ _ OK _ _ _ K) in SE.
  destruct (update_any cf tops lops ENV st a i os ot s 0 K L SE) as (st' & R' & C).
  pose proof (awf_some _ _ _ W L) as [IR _].
  assert (HI : hidden (a_update a i s 0) (upd (tpl a) i (filed a i os 0)) i).
  { eapply hidden_after; eauto; [apply K|lia]. }
  assert (W' : awf (a_update a i s 0)) by (apply awf_update; congruence).
  assert (NL : no_link SL st' i).
  { unfold no_link, SL. rewrite (hidden_li_get cf tops lops ENV _ _ _ _ i i R' HI), N.eqb_refl. reflexivity. }
  exists st'. split.
  { assert (C2 : calls_once (fun H h x => li_update SL H h [i] [i; s; 0] st x) st' (mkLink i os ot) (mkLink i s 0)) by exact C.
    unfold d_update, d_update_by, d_update_by_with. rewrite (wadapt_once _ _ _ _ _ _ _ _ C2). reflexivity. }
  split; auto. split; [|split; [auto|split; [|split]]].
  - intros j J. unfold SL. rewrite (hidden_li_get cf tops lops ENV _ _ _ _ i j R' HI). destruct (N.eqb_spec j i); [contradiction|].
    cbn [a_map a_update]. rewrite upd_other by auto. symmetry. exact (lo_get _ _ _ _ OK _ _ j K).
  - intros s' t'. unfold no_link, SL in NL. cbn [li_get split_links] in NL.
    unfold d_update, d_update_by, d_update_by_with. cbn [li_update SL split_links]. unfold s_update.
    change (qget [i] 0) with (Val i). change (qget [i; s'; t'] 1) with (Val s'). change (qget [i; s'; t'] 2) with (Val t').
    cbn [obind]. rewrite NL. reflexivity.
  - unfold no_link, SL in NL. cbn [li_get split_links] in NL.
    unfold d_delete, d_delete_by, d_delete_by_with. cbn [li_delete SL split_links]. unfold s_delete.
    change (qget [i] 0) with (Val i). cbn [obind]. rewrite NL. reflexivity.
  - destruct (hidden_disagree cf tops lops ENV _ _ _ _ i R' W' HI) as (n & EN & C1 & C2).
    exists n. split; [|auto]. rewrite <- EN.
    assert (EL : length (alinks (a_update a i s 0)) = length (alinks a)).
    { unfold alinks. rewrite !alinks_length_gen. f_equal. apply filter_ext. intros j. cbn [a_map a_update]. unfold upd.
      destruct (N.eqb_spec j i) as [->|]; [now rewrite L|reflexivity]. }
    rewrite EL. eapply count_ok; eauto. apply K.
Qed.
Lemma L_C26_always_lost_nonvacuous : exists st d, s_hist ex_cf ref_tree_ops ref_list_ops st d /\
  is_link ex_S st 3 2 1 /\ separable ex_S st 3 /\ is_link ex_S st 1 1 1.
Proof.
  destruct ex3_sreach as (d & HH & DP & L1 & _ & L3). exists (ex_sst ex3), d. sp. sp. split; [now apply distinct_separable|auto].
Qed.

(** * C29 *)
(** [L]: the links of the store other than [i] with [end_of] equal to [v]. *)
Definition others_by (cf : cfg) (st : sst) (end_of : link -> N) (v i : N) (L : list link) : Prop :=
  NoDup L /\ forall l, In l L <-> s_get_link cf st (l_index l) = Val (Some l) /\ end_of l = v /\ l_index l <> i.

(** A link that has a source, updated to refer to itself: the link reads back as written,
    and the queries by its own index visit and count only the other links.  With both ends
    its own index it is not found by its pair either. *)
Lemma L_C29_self_reference_always_lost cf tops lops st d i os ot s t :
  let SL := split_links cf tops lops in
  unit_env cf tops lops -> s_hist cf tops lops st d -> is_link SL st i os ot -> os <> 0 -> separable SL st i ->
  t <> 0 \/ s = 0 ->
  exists st', d_update SL i s t st = Val (st', Ok i) /\
    calls_once (fun H h x => s_update cf tops h [i] [i; s; t] st x) st' (mkLink i os ot) (mkLink i s t) /\
    is_link SL st' i s t /\ frame SL st st' i /\ s_count cf st' [] = s_count cf st [] /\
    (s = i -> exists L, others_by cf st' l_source i i L /\
       s_count cf st' [c_any cf; i; c_any cf] = Val (N.of_nat (length L)) /\
       forall H (h : rhandler H) y, s_each cf h [c_any cf; i; c_any cf] st' y = Val (run_handler h L y)) /\
    (t = i -> exists L, others_by cf st' l_target i i L /\
       s_count cf st' [c_any cf; c_any cf; i] = Val (N.of_nat (length L)) /\
       forall H (h : rhandler H) y, s_each cf h [c_any cf; c_any cf; i] st' y = Val (run_handler h L y)) /\
    (s = i -> t = i -> (forall j, is_link SL st' j i i -> j = i) -> d_search cf SL st' i i = Val None).
Proof.
  intros SL ENV HH L OS SE TS. sopen a K D. pose proof (f_ok _ _ _ ENV) as OK. pose proof (lo_wf _ _ _ _ OK _ _ K) as W.
  pose proof (proj1 ENV) as CF. pose proof (any0 cf CF) as A0.
  apply (ob_link cf _ _ _ OK _ _ _ _ _ K) in L. apply (ob_sep cf _ _ _ OK _ _ _ K) in SE.
  destruct (update_any cf tops lops ENV st a i os ot s t K L SE) as (st' & R' & C).
  set (a' := a_update a i s t) in *.
  pose proof (awf_some _ _ _ W L) as [IR _].
  assert (VP : all_placed a' (upd (tpl a) i (filed a i os t))) by (eapply placed_after; eauto; apply K).
  assert (W' : awf a') by (apply awf_update; congruence).
  assert (G : forall j, li_get SL st' j = Val (olink j (a_map a' j))).
  { intros j. exact (placed_get cf tops lops ENV _ _ _ _ j R' VP). }
  assert (MI : a_map a' i = Some (s, t)) by (cbn; apply upd_same).
  assert (MJ : forall j, j <> i -> a_map a' j = a_map a j) by (intros j J; cbn; now apply upd_other).
  assert (FS : filed a i os i = Ext).
  { unfold filed. rewrite N.eqb_refl. destruct (N.eqb_spec os 0); [contradiction|reflexivity]. }
  assert (I0 : i <> 0) by lia.
  assert (VF : s_is_virtual st' i = Val false).
  { rewrite (s_is_virtual_ok cf st' _ _ _ i R' VP). f_equal. unfold isvirt. rewrite MI. destruct (N.eqb_spec i 0); [contradiction|reflexivity]. }
  pose proof (s_is_virtual_ok cf st' _ _ _ (c_any cf) R' VP) as VA.
  assert (IA : i <> c_any cf).
  { pose proof (sm_iend _ _ _ _ _ R'). pose proof (ok_iend _ CF). cbn [a' a_top a_update] in *. lia. }
  assert (OB : forall e U, NoDup U -> (forall j, In j U <-> exists x y, j <> i /\ a_map a j = Some (x, y) /\ e (mkLink j x y) = i) ->
    others_by cf st' e i i (map (link_of (s_data st')) U)).
  { intros e U ND HU. split; [now apply map_link_nodup|]. intros l. rewrite in_map_iff.
    change (s_get_link cf st' (l_index l)) with (li_get SL st' (l_index l)). rewrite G. split.
    - intros (j & <- & J). apply HU in J as (x & y & NE & M & E).
      assert (M' : a_map a' j = Some (x, y)) by (rewrite MJ; auto).
      unfold link_of. rewrite (sm_data _ _ _ _ _ R' _ _ M'). cbn [l_index fst snd]. rewrite M'. cbn [olink]. auto.
    - destruct l as [j x y]. cbn [l_index]. intros (E & F & NE). destruct (a_map a' j) as [[x' y']|] eqn:M; [|discriminate].
      cbn [olink] in E. injection E as <- <-. exists j. split.
      + unfold link_of. rewrite (sm_data _ _ _ _ _ R' _ _ M). reflexivity.
      + apply HU. exists x', y'. rewrite MJ in M by auto. auto. }
  assert (TOP : i <= a_top a') by (cbn; lia).
  exists st'. split.
  { assert (C2 : calls_once (fun H h x => li_update SL H h [i] [i; s; t] st x) st' (mkLink i os ot) (mkLink i s t)) by exact C.
    unfold d_update, d_update_by, d_update_by_with. rewrite (wadapt_once _ _ _ _ _ _ _ _ C2). reflexivity. }
  split; auto. split; [unfold is_link; rewrite G, MI; reflexivity|].
  split; [|split; [|split; [|split]]].
  - intros j J. rewrite G, MJ by auto. symmetry. exact (lo_get _ _ _ _ OK _ _ j K).
  - assert (EL : length (alinks a') = length (alinks a)).
    { unfold alinks. rewrite !alinks_length_gen. f_equal. apply filter_ext. intros j. destruct (N.eq_dec j i) as [->|NE].
      - now rewrite MI, L.
      - now rewrite MJ. }
    rewrite (count_ok cf st' _ _ _ R'), EL. symmetry. eapply count_ok. apply K.
  - intros ->. destruct (s_is_walk cf st' _ _ _ i R' I0 TOP) as (U & ND & U2 & U3 & U4).
    exists (map (link_of (s_data st')) U). split; [|split].
    + apply OB; auto. intros j. rewrite U2. unfold upd. destruct (N.eqb_spec j i) as [->|NE].
      * rewrite FS. split; [discriminate|]. intros (x & y & E & _). congruence.
      * unfold spl. destruct (a_map a j) as [[x y]|]; [|split; [discriminate|intros (x & y & _ & E & _); discriminate]].
        rewrite place_of_int. split.
        -- intros (-> & _). exists i, y. auto.
        -- intros (x' & y' & _ & E & F). injection E as -> ->. cbn in F. subst x'. repeat split; auto. congruence.
    + openq CF. rewrite VF, VA. cbn [obind]. rewrite N.eqb_refl. destruct (N.eqb_spec i (c_any cf)); [contradiction|].
      cbn [andb]. rewrite U4. now rewrite map_length.
    + intros H h y. openq CF. rewrite VF, VA. cbn [obind]. rewrite N.eqb_refl. destruct (N.eqb_spec i (c_any cf)); [contradiction|].
      cbn [andb]. apply U3.
  - intros ->. destruct (s_it_walk cf st' _ _ _ i R' I0 TOP) as (U & ND & U2 & U3 & U4).
    exists (map (link_of (s_data st')) U). split; [|split].
    + apply OB; auto. intros j. rewrite U2. unfold upd. destruct (N.eqb_spec j i) as [->|NE].
      * rewrite FS. split; [discriminate|]. intros (x & y & E & _). congruence.
      * unfold tpl. destruct (a_map a j) as [[x y]|]; [|split; [discriminate|intros (x & y & _ & E & _); discriminate]].
        rewrite place_of_int. split.
        -- intros (-> & _). exists x, i. auto.
        -- intros (x' & y' & _ & E & F). injection E as -> ->. cbn in F. subst y'. repeat split; auto. congruence.
    + openq CF. rewrite VF, VA. cbn [obind]. rewrite N.eqb_refl. destruct (N.eqb_spec i (c_any cf)); [contradiction|].
      cbn [andb]. rewrite U4. now rewrite map_length.
    + intros H h y. openq CF. rewrite VF, VA. cbn [obind]. rewrite N.eqb_refl. destruct (N.eqb_spec i (c_any cf)); [contradiction|].
      cbn [andb]. apply U3.
  - intros -> -> ONE.
    assert (NO : forall r, a_map a' r = Some (i, i) -> r = i).
    { intros r E. apply ONE. unfold is_link. now rewrite G, E. }
    assert (S0 : s_search st' false false i i = Val 0).
    { destruct (s_is_search_ok cf st' _ _ _ i i R' I0 TOP) as (r & E1 & H1).
      destruct (s_it_search_ok cf st' _ _ _ i i R' I0 TOP) as (r' & E2 & H2).
      destruct (s_is_walk cf st' _ _ _ i R' I0 TOP) as (U & _ & _ & _ & U4).
      destruct (s_it_walk cf st' _ _ _ i R' I0 TOP) as (U' & _ & _ & _ & U4').
      unfold s_search. cbn [andb]. rewrite U4, U4'. cbn [obind].
      assert (r = 0) as ->. { destruct H1 as [[-> _]|[P E]]; auto. apply NO in E as ->. rewrite upd_same, FS in P. discriminate. }
      assert (r' = 0) as ->. { destruct H2 as [[-> _]|[P E]]; auto. apply NO in E as ->. rewrite upd_same, FS in P. discriminate. }
      destruct (_ <? _); auto. }
    unfold d_search, d_find, d_each_by. cbn [li_each SL split_links]. openq CF. rewrite VF. cbn [obind]. rewrite N.eqb_refl.
    destruct (N.eqb_spec i (c_any cf)); [contradiction|]. cbn [andb]. rewrite S0. cbn [obind].
    rewrite (ok_null _ CF), N.eqb_refl. reflexivity.
Qed.
Lemma L_C29_always_lost_nonvacuous : exists st d, s_hist ex_cf ref_tree_ops ref_list_ops st d /\
  is_link ex_S st 3 2 1 /\ separable ex_S st 3 /\ is_link ex_S st 1 1 1 /\ 2 <> 0.
Proof.
  destruct ex3_sreach as (d & HH & DP & L1 & _ & L3). exists (ex_sst ex3), d. sp. sp.
  split; [now apply distinct_separable|]. split; [auto|discriminate].
Qed.

(** * C27 *)
(** An index and one end: count demands the value at both ends, each at one. *)
Lemma L_C27_index_and_end_always cf tops lops st d i s t v :
  let SL := split_links cf tops lops in
  unit_env cf tops lops -> s_hist cf tops lops st d -> is_link SL st i s t -> v <> c_any cf ->
  s_count cf st [i; v] = Val (if (s =? v) && (t =? v) then 1 else 0) /\
  (forall H (h : rhandler H) x,
     s_each cf h [i; v] st x = Val (if (s =? v) || (t =? v) then h x (mkLink i s t) else (x, Continue))).
Proof.
  intros SL ENV HH L VA. sopen a K D. pose proof (f_ok _ _ _ ENV) as OK. pose proof (lo_wf _ _ _ _ OK _ _ K) as W.
  pose proof (proj1 ENV) as CF. pose proof L as G. unfold is_link in G. cbn [li_get SL split_links] in G.
  apply (ob_link cf _ _ _ OK _ _ _ _ _ K) in L. destruct K as [(R & _ & VV) _]. pose proof (all_placed_tpl a VV) as V.
  pose proof (awf_some _ _ _ W L) as [IR _]. pose proof (sm_iend _ _ _ _ _ R). pose proof (ok_iend _ CF).
  pose proof (sm_len _ _ _ _ _ R).
  split.
  - openq CF. rewrite (s_is_virtual_ok cf _ _ _ _ v R V). cbn [obind]. destruct (N.eqb_spec i (c_any cf)); [lia|].
    rewrite (s_exists_ok cf CF _ _ _ _ i R V), L. cbn [obind negb]. destruct (N.eqb_spec v (c_any cf)); [contradiction|].
    rewrite (s_get_data_ok cf _ _ _ _ _ R) by lia. cbn [obind]. rewrite (sm_data _ _ _ _ _ R _ _ L). cbn [fst snd].
    destruct ((s =? v) && (t =? v)); reflexivity.
  - intros H2 h x. openq CF. destruct (N.eqb_spec i (c_any cf)); [lia|]. unfold s_each_one. rewrite G. cbn [obind l_source l_target].
    destruct (N.eqb_spec v (c_any cf)); [contradiction|]. cbn [orb]. destruct ((s =? v) || (t =? v)); reflexivity.
Qed.
Lemma L_C27_index_and_end_nonvacuous : exists st d, s_hist ex_cf ref_tree_ops ref_list_ops st d /\
  is_link ex_S st 2 1 2 /\ is_link ex_S st 1 1 1 /\
  s_count ex_cf st [2; 1] = Val 0 /\ s_count ex_cf st [1; 1] = Val 1 /\ s_count ex_cf st [1; 2] = Val 0.
Proof. destruct ex3_sreach as (d & HH & _). exists (ex_sst ex3), d. sp. conj; vm_compute; reflexivity. Qed.

Section ES.
  Variables (cf : cfg) (tops : tree_ops) (lops : list_ops).
  Hypothesis ENV : unit_env cf tops lops.
  Let CF : cfg_ok cf := proj1 ENV.

  Lemma s_es_count_empty st a sP tP v : smem cf st a sP tP -> sh_sroot st = 0 -> s_es_count cf st v = Val (sh_first st).
  Proof.
    intros R Z. unfold s_es_count. rewrite (s_header_ok _ _ _ _ _ R), (s_view_ok _ _ _ _ _ R). cbn [obind].
    rewrite Z. unfold count_usages_tree. rewrite rd_ok.
    - cbn [obind]. destruct (s_fuel st) as [|f] eqn:F; [unfold s_fuel in F; lia|]. cbn [cu_right cu_left N.eqb obind].
      rewrite !csub_ok by lia. cbn [obind]. rewrite csub_ok by lia. unfold sh_first. now rewrite !N.sub_0_r.
    - rewrite (s_len_ok _ _ _ _ _ R). pose proof (sm_len _ _ _ _ _ R). lia.
  Qed.
End ES.

(** The links with source [s]. *)
Definition by_source (cf : cfg) (st : sst) (s : N) (L : list link) : Prop :=
  NoDup L /\ forall l, In l L <-> s_get_link cf st (l_index l) = Val (Some l) /\ l_source l = s.

(** A source that is not a link: the count is the same for every target.  It is the number
    of links with this source when some link has an outer source or the store has no hole;
    otherwise it is the index of a hole, the one the next create gives, although each visits
    nothing. *)
Lemma L_C27_outer_source_always cf tops lops st d s :
  let SL := split_links cf tops lops in
  unit_env cf tops lops -> s_hist cf tops lops st d -> no_link SL st s -> s <> 0 -> s <> c_any cf ->
  exists n, (forall t, s_count cf st [c_any cf; s; t] = Val n) /\
    (outer_source SL st \/ no_hole SL st -> exists L, by_source cf st s L /\ n = N.of_nat (length L)) /\
    (~ outer_source SL st -> ~ no_hole SL st ->
       hole SL st n /\ (forall st' i, d_create SL st = Val (st', Ok i) -> i = n) /\
       forall H (h : rhandler H) x, s_each cf h [c_any cf; s; c_any cf] st x = Val (x, Continue)).
Proof.
  intros SL ENV HH L S0 SA. pose proof HH as HH0. sopen a K D. pose proof (f_ok _ _ _ ENV) as OK. pose proof (lo_wf _ _ _ _ OK _ _ K) as W.
  pose proof (proj1 ENV) as CF. pose proof (any0 cf CF) as A0.
  apply (ob_none cf _ _ _ OK _ _ _ K) in L. pose proof K as K0. destruct K as [(R & _ & VV) _]. pose proof (all_placed_tpl a VV) as V.
  assert (VS : s_is_virtual st s = Val true).
  { rewrite (s_is_virtual_ok cf _ _ _ _ s R V). unfold isvirt. rewrite L. destruct (N.eqb_spec s 0); [contradiction|reflexivity]. }
  assert (CQ : forall t, s_count cf st [c_any cf; s; t] = s_es_count cf st s).
  { intros t. openq CF. rewrite VS, (s_is_virtual_ok cf _ _ _ _ t R V). cbn [obind]. rewrite N.eqb_refl.
    destruct (N.eqb_spec s (c_any cf)); [contradiction|]. reflexivity. }
  destruct (s_es_walk cf CF _ _ _ _ s R) as (U & ND & U2 & U3 & U4).
  assert (EX : forall x, spl a x = Ext <-> exists y t, a_map a x = Some (y, t) /\ y <> 0 /\ a_map a y = None).
  { intros x. unfold spl. destruct (a_map a x) as [[y t]|]; [|split; [discriminate|intros (? & ? & E & _); discriminate]].
    rewrite place_of_ext. split; [intros E; exists y, t; auto|intros (y' & t' & E & F); injection E as -> ->; auto]. }
  assert (OS : outer_source SL st <-> exists x, spl a x = Ext).
  { unfold outer_source. split.
    - intros (x & y & t & E & F & G). exists x. apply EX. exists y, t.
      apply (ob_link cf _ _ _ OK _ _ _ _ _ K0) in E. apply (ob_none cf _ _ _ OK _ _ _ K0) in G. auto.
    - intros (x & E). apply EX in E as (y & t & E & F & G). exists x, y, t.
      split; [now apply (ob_link cf _ _ _ OK _ _ _ _ _ K0)|]. split; auto. now apply (ob_none cf _ _ _ OK _ _ _ K0). }
  assert (NH : no_hole SL st <-> a_free a = []).
  { split.
    - intros N. destruct (a_free a) as [|k f] eqn:E; auto. exfalso. apply (N k). apply (ob_hole cf _ _ _ OK _ _ _ K0). rewrite E. now left.
    - intros E k N. apply (ob_hole cf _ _ _ OK _ _ _ K0) in N. rewrite E in N. destruct N. }
  destruct (N.eq_dec (sh_sroot st) 0) as [Z|Z].
  - assert (NE : ~ exists x, spl a x = Ext).
    { intros (x & X). pose proof (fo_ext _ _ _ _ _ _ (sm_src _ _ _ _ _ R)) as T. rewrite Z in T.
      eapply tree_inv_root0 in T. apply T. exact X. }
    assert (UE : U = []).
    { destruct U as [|u U]; auto. exfalso. apply NE. exists u. apply U2. now left. }
    subst U. exists (sh_first st). split; [|split].
    + intros t. rewrite CQ. eapply s_es_count_empty; eauto.
    + intros [C|C]; [now apply OS in C|]. apply NH in C. exists []. split; [split; [constructor|]|].
      * intros [x y t]. cbn [l_index l_source]. split; [intros []|]. intros [G ->]. exfalso. apply NE. exists x. apply EX. exists s, t.
        change (is_link SL st x s t) in G. apply (ob_link cf _ _ _ OK _ _ _ _ _ K0) in G. auto.
      * rewrite (sm_first _ _ _ _ _ R), C. reflexivity.
    + intros NO HO. destruct (a_free a) as [|k f] eqn:F; [exfalso; now apply HO, NH|].
      assert (FK : sh_first st = k) by (rewrite (sm_first _ _ _ _ _ R), F; reflexivity). rewrite FK.
      assert (AN : a_next a = k) by (unfold a_next; now rewrite F).
      split; [apply (ob_hole cf _ _ _ OK _ _ _ K0); rewrite F; now left|]. split.
      * intros st' i E. destruct (s_create_obs cf tops lops ENV st a d [] HH0 K0) as
          [(_ & N & _)|[[_ C]|[(_ & N & _)|(_ & st2 & _ & _ & _ & C)]]].
        -- apply NH in N. discriminate.
        -- unfold d_create, d_create_by, d_create_by_with in E. cbn [li_create SL split_links] in E. rewrite C in E.
           cbn [obind rmap] in E. discriminate.
        -- apply NH in N. discriminate.
        -- rewrite AN in C. unfold d_create, d_create_by, d_create_by_with in E. cbn [li_create SL split_links] in E.
           rewrite C in E. cbn [obind rmap wadapt fst snd l_index] in E. now injection E.
      * intros H h x. openq CF. rewrite VS, (s_is_virtual_ok cf _ _ _ _ (c_any cf) R V). cbn [obind]. rewrite N.eqb_refl.
        destruct (N.eqb_spec s (c_any cf)); [contradiction|]. cbn [andb]. rewrite U3. reflexivity.
  - assert (NE : exists x, spl a x = Ext).
    { destruct (fo_ext _ _ _ _ _ _ (sm_src _ _ _ _ _ R)) as (t & TR & _ & _ & TE). exists (sh_sroot st). apply TE. eapply trep_root_in; eauto. }
    exists (N.of_nat (length U)). split; [intros t; rewrite CQ; apply U4; auto|]. split; [|intros C; now apply OS in NE].
    intros _. exists (map (link_of (s_data st)) U). split; [|now rewrite map_length]. split; [now apply map_link_nodup|].
    intros l. rewrite in_map_iff. split.
    + intros (j & <- & J). apply U2 in J as [J1 J2]. apply EX in J1 as (y & t & J1 & _).
      unfold link_of. rewrite (sm_data _ _ _ _ _ R _ _ J1) in *. cbn [l_index fst snd l_source] in *. split; auto.
      change (is_link SL st j y t). now apply (ob_link cf _ _ _ OK _ _ _ _ _ K0).
    + destruct l as [j y t]. cbn [l_index l_source]. intros [G ->]. change (is_link SL st j s t) in G.
      apply (ob_link cf _ _ _ OK _ _ _ _ _ K0) in G. exists j. unfold link_of. rewrite (sm_data _ _ _ _ _ R _ _ G).
      split; auto. apply U2. rewrite (sm_data _ _ _ _ _ R _ _ G). split; auto. apply EX. exists s, t. auto.
Qed.
Lemma L_C27_outer_source_nonvacuous : exists st d, s_hist ex_cf ref_tree_ops ref_list_ops st d /\
  no_link ex_S st 1 /\ ~ outer_source ex_S st /\ hole ex_S st 2 /\ s_count ex_cf st [200; 1; 77] = Val 3.
Proof.
  set (l := [Cr; Cr; Cr; Cr; De 1; De 2; De 3]).
  destruct (ex_sreach l) as (d & HH & K); [vm_compute; reflexivity..|]. exists (ex_sst l), d. sp.
  split; [vm_compute; reflexivity|]. split; [|split; [|vm_compute; reflexivity]].
  - intros (x & s & t & L & S0 & NL). apply (ob_link ex_cf _ _ _ (f_ok _ _ _ ex_env) _ _ _ _ _ K) in L.
    assert (E : x = 4 /\ s = 0).
    { pose proof (awf_some _ _ _ (lo_wf _ _ _ _ (f_ok _ _ _ ex_env) _ _ K) L) as [R _].
      assert (T : a_top (arun a_empty l) = 4) by (vm_compute; reflexivity). rewrite T in R.
      assert (x = 1 \/ x = 2 \/ x = 3 \/ x = 4) as C by lia.
      destruct C as [->|[->|[->| ->]]]; vm_compute in L; try discriminate. injection L as <- <-. auto. }
    now destruct E.
  - apply (ob_hole ex_cf _ _ _ (f_ok _ _ _ ex_env) _ _ _ K). vm_compute. auto.
Qed.

(** * C51 *)
Lemma subtree_at c t : forall root i, trep c root t -> In i (elems t) ->
  exists t', trep c i t' /\ In i (elems t') /\ (forall j, In j (elems t') -> In j (elems t)) /\
    (height t' <= height t)%nat.
Proof.
  induction t as [|l IHl m r IHr]; intros root i HR HI; [destruct HI|].
  pose proof HR as HR0. cbn [trep] in HR. destruct HR as (-> & M0 & _ & Hl & Hr).
  cbn [elems] in HI. apply in_app_iff in HI as [HI|[<-|HI]].
  - destruct (IHl _ _ Hl HI) as (t' & A & B & C & D). exists t'. cbn [height]. repeat split; auto; [|lia].
    intros j J. now apply in_elems_l, C.
  - exists (T l m r). split; [exact HR0|]. split; [apply in_elems_m|]. auto.
  - destruct (IHr _ _ Hr HI) as (t' & A & B & C & D). exists t'. cbn [height]. repeat split; auto; [|lia].
    intros j J. now apply in_elems_r, C.
Qed.

(** A query by a null source walks the tree under the highest link, wherever that link is
    filed, if the store has a hole: it visits the highest link, and otherwise only links
    with a source.  Without a hole it visits nothing. *)
Lemma L_C51_null_source_always cf tops lops st d :
  let SL := split_links cf tops lops in
  unit_env cf tops lops -> s_hist cf tops lops st d ->
  (no_hole SL st -> forall H (h : rhandler H) x, s_each cf h [c_any cf; 0; c_any cf] st x = Val (x, Continue)) /\
  forall k s t, is_link SL st k s t -> (forall j, linked SL st j -> j <= k) -> ~ no_hole SL st ->
    exists L, In (mkLink k s t) L /\
      (forall l, In l L -> is_link SL st (l_index l) (l_source l) (l_target l)) /\
      (s = 0 -> L = [mkLink k 0 t] /\ s_count cf st [c_any cf; 0; c_any cf] = Val 0) /\
      (s <> 0 -> (forall l, In l L -> l_source l <> 0) /\
         s_count cf st [c_any cf; 0; c_any cf] = Val (N.of_nat (length L))) /\
      forall H (h : rhandler H) x, s_each cf h [c_any cf; 0; c_any cf] st x = Val (run_handler h L x).
Proof.
  intros SL ENV HH. sopen a K D. pose proof (f_ok _ _ _ ENV) as OK. pose proof (lo_wf _ _ _ _ OK _ _ K) as W.
  pose proof (proj1 ENV) as CF. pose proof (any0 cf CF) as A0.
  pose proof K as K0. destruct K as [(R & _ & VV) _]. pose proof (all_placed_tpl a VV) as V.
  pose proof (sm_len _ _ _ _ _ R) as LE. pose proof (sm_dlen _ _ _ _ _ R) as DL.
  assert (NH : no_hole SL st <-> a_free a = []).
  { split.
    - intros N. destruct (a_free a) as [|k f] eqn:E; auto. exfalso. apply (N k). apply (ob_hole cf _ _ _ OK _ _ _ K0). rewrite E. now left.
    - intros E k N. apply (ob_hole cf _ _ _ OK _ _ _ K0) in N. rewrite E in N. destruct N. }
  split.
  - intros N H h x. apply NH in N. openq CF.
    rewrite (s_is_virtual_ok cf _ _ _ _ 0 R V), (s_is_virtual_ok cf _ _ _ _ (c_any cf) R V). cbn [obind]. rewrite !N.eqb_refl.
    destruct (N.eqb_spec 0 (c_any cf)); [congruence|]. cbn [andb]. unfold isvirt at 1. cbn [N.eqb]. rewrite N.
    destruct (s_es_walk cf CF _ _ _ _ 0 R) as (U & ND & U2 & U3 & _). rewrite U3.
    destruct U as [|u U]; [reflexivity|]. exfalso. destruct (proj1 (U2 u) (or_introl eq_refl)) as [E1 E2].
    unfold spl in E1. destruct (a_map a u) as [[y t]|] eqn:E; [|discriminate].
    rewrite (sm_data _ _ _ _ _ R _ _ E) in E2. cbn [fst] in E2. subst y. discriminate.
  - intros k s t L TOP N.
    assert (EA : forall H (h : rhandler H) x, s_each cf h [c_any cf; 0; c_any cf] st x = s_is_each st 0 h x).
    { intros H h x. openq CF.
      rewrite (s_is_virtual_ok cf _ _ _ _ 0 R V), (s_is_virtual_ok cf _ _ _ _ (c_any cf) R V). cbn [obind]. rewrite !N.eqb_refl.
      destruct (N.eqb_spec 0 (c_any cf)); [congruence|]. cbn [andb]. unfold isvirt at 1. cbn [N.eqb].
      destruct (a_free a); [exfalso; apply N, NH; auto|reflexivity]. }
    assert (EC : s_count cf st [c_any cf; 0; c_any cf] = s_is_count st 0).
    { openq CF.
      rewrite (s_is_virtual_ok cf _ _ _ _ 0 R V), (s_is_virtual_ok cf _ _ _ _ (c_any cf) R V). cbn [obind]. rewrite !N.eqb_refl.
      destruct (N.eqb_spec 0 (c_any cf)); [congruence|]. cbn [andb]. unfold isvirt at 1. cbn [N.eqb].
      destruct (a_free a); [exfalso; apply N, NH; auto|reflexivity]. }
    apply (ob_link cf _ _ _ OK _ _ _ _ _ K0) in L. pose proof (awf_some _ _ _ W L) as [KR _].
    assert (KT : k = a_top a).
    { destruct (wf_top _ W) as [Z|Z]; [lia|]. assert (a_top a <= k); [|lia].
      apply TOP. apply (ob_linked cf _ SL _ OK _ _ _ K0). exact Z. }
    assert (RT : s_rs st 0 = k) by (pose proof (sm_alloc _ _ _ _ _ R) as E; unfold sh_alloc in E; congruence).
    assert (EE : forall H (h : rhandler H) x, s_is_each st 0 h x =
      each_inorder (s_fuel st) (s_len st) (s_is st) (link_of (s_data st)) k h x).
    { intros H h x. unfold s_is_each. rewrite rd_ok by lia. rewrite (s_view_ok _ _ _ _ _ R). cbn [obind]. now rewrite RT. }
    assert (EK : s_is_count st 0 = Val (nz (s_is st k))).
    { unfold s_is_count. rewrite rd_ok by lia. cbn [obind]. rewrite RT. unfold size_or_zero.
      destruct (N.eqb_spec k 0); [lia|]. rewrite rd_ok by lia. reflexivity. }
    assert (LK : link_of (s_data st) k = mkLink k s t) by (unfold link_of; now rewrite (sm_data _ _ _ _ _ R _ _ L)).
    destruct (N.eq_dec s 0) as [->|S0].
    + exists [mkLink k 0 t]. split; [now left|].
      assert (PO : spl a k = Out) by (unfold spl; rewrite L; reflexivity).
      pose proof (fo_out _ _ _ _ _ _ (sm_src _ _ _ _ _ R) k ltac:(lia) PO) as NK.
      split. { intros l [<-|[]]. cbn. now apply (ob_link cf _ _ _ OK _ _ _ _ _ K0). }
      split. { intros _. split; auto. rewrite EC, EK, NK. reflexivity. }
      split; [contradiction|]. intros H h x. rewrite EA, EE. unfold s_fuel. rewrite (sm_alloc _ _ _ _ _ R), <- KT.
      destruct (N.to_nat k) as [|f] eqn:F; [lia|]. cbn [each_inorder]. destruct (N.eqb_spec k 0); [lia|].
      assert (KL : k < s_len st) by (unfold s_len; lia).
      unfold left_or_default, right_or_default. destruct (N.eqb_spec k 0); [lia|]. rewrite !rd_ok by auto. cbn [obind].
      rewrite NK. cbn [nl nr nd0 N.eqb obind]. rewrite LK. cbn [run_handler]. destruct (h x (mkLink k 0 t)) as [y [|]]; reflexivity.
    + assert (TR : exists tr root, trep (s_is st) root tr /\ In k (elems tr) /\ NoDup (elems tr) /\
        forall j, In j (elems tr) -> spl a j <> Out).
      { destruct (spl a k) as [| |v] eqn:P.
        - exfalso. unfold spl in P. rewrite L in P. apply place_of_out in P. contradiction.
        - destruct (fo_ext _ _ _ _ _ _ (sm_src _ _ _ _ _ R)) as (tr & A & B & _ & C). exists tr, (sh_sroot st).
          split; auto. split; [now apply C|]. split; auto. intros j J. apply C in J. congruence.
        - assert (V0 : v <> 0) by (intros ->; now apply (fo_nz _ _ _ _ _ _ (sm_src _ _ _ _ _ R)) in P).
          destruct (fo_int _ _ _ _ _ _ (sm_src _ _ _ _ _ R) v V0) as (tr & A & B & _ & C). exists tr, (s_rs st v).
          split; auto. split; [now apply C|]. split; auto. intros j J. apply C in J. congruence. }
      destruct TR as (tr & root & T1 & T2 & T3 & T4).
      destruct (subtree_at _ _ _ _ T1 T2) as (t' & S1 & S2 & S3 & S4).
      assert (PJ : forall j, In j (elems t') -> 1 <= j <= a_top a).
      { intros j J. apply (sm_srange cf st a (spl a) (tpl a) j R). now apply T4, S3. }
      assert (MJ : forall j, In j (elems t') -> exists y z, a_map a j = Some (y, z) /\ y <> 0).
      { intros j J. specialize (T4 j (S3 j J)). unfold spl in T4. destruct (a_map a j) as [[y z]|] eqn:E; [|congruence].
        exists y, z. split; auto. intros ->. apply T4. reflexivity. }
      exists (map (link_of (s_data st)) (elems t')).
      split; [rewrite <- LK; now apply in_map|].
      split. { intros l Hl. apply in_map_iff in Hl as (j & <- & J). destruct (MJ j J) as (y & z & E & _).
        unfold link_of. rewrite (sm_data _ _ _ _ _ R _ _ E). cbn. now apply (ob_link cf _ _ _ OK _ _ _ _ _ K0). }
      split; [contradiction|]. split.
      { intros _. split.
        - intros l Hl. apply in_map_iff in Hl as (j & <- & J). destruct (MJ j J) as (y & z & E & Y).
          unfold link_of. rewrite (sm_data _ _ _ _ _ R _ _ E). exact Y.
        - rewrite EC, EK, map_length. destruct t' as [|l m r]; [destruct S2|]. cbn [trep] in S1. destruct S1 as (<- & _ & Z & _).
          rewrite Z. reflexivity. }
      intros H h x. rewrite EA, EE. apply each_inorder_ok; auto.
      * intros j J. apply PJ in J. unfold s_len. lia.
      * pose proof (height_elems tr). assert (N.of_nat (length (elems tr)) <= a_top a).
        { apply bounded_length; auto. intros j J. apply (sm_srange cf st a (spl a) (tpl a) j R). now apply T4. }
        unfold s_fuel. rewrite (sm_alloc _ _ _ _ _ R). lia.
Qed.
Lemma L_C51_null_source_nonvacuous : exists st d, s_hist ex_cf ref_tree_ops ref_list_ops st d /\
  is_link ex_S st 2 0 0 /\ is_link ex_S st 3 2 2 /\ hole ex_S st 1 /\ (forall j, linked ex_S st j -> j <= 3) /\
  s_count ex_cf st [200; 0; 200] = Val 1 /\
  s_each ex_cf (fun v l => (v ++ [l], Continue)) [200; 0; 200] st [] = Val ([mkLink 3 2 2], Continue).
Proof.
  set (l := [Cr; Cr; Cr; Up 3 2 2; De 1]).
  destruct (ex_sreach l) as (d & HH & K); [vm_compute; reflexivity..|]. exists (ex_sst l), d. sp.
  do 2 (split; [vm_compute; reflexivity|]).
  assert (TP : forall j, linked ex_S (ex_sst l) j -> j <= 3).
  { intros j J. apply (ob_top ex_cf _ ex_S _ (f_ok _ _ _ ex_env) _ _ K) in J.
    assert (a_top (arun a_empty l) = 3) by (vm_compute; reflexivity). lia. }
  split. { split; [lia|]. split; [vm_compute; reflexivity|]. exists 3. split; [lia|]. exists 2, 2. vm_compute; reflexivity. }
  split; [exact TP|]. split; vm_compute; reflexivity.
Qed.

(** * C45 *)
(** Whatever the store, if the index memory alone cannot grow, create reports the failure and
    from then on every access to a link is undefined behaviour; only the total can be read. *)
Lemma L_C45_split_index_failure_always cf tops lops st d q orc H (h : whandler H) x st1 x1 :
  let SL := split_links cf tops lops in
  unit_env cf tops lops -> s_hist cf tops lops st d ->
  (forall a b, orc 0%nat a b = NoIndex) ->
  s_create cf tops lops h q (s_forecast st orc) x = Val (st1, x1, Err AllocFailed) ->
  x1 = x /\ s_count cf st1 [] = s_count cf st [] /\
  (forall i s t, is_link SL st i s t ->
     s_get_link cf st1 i = UB /\ (forall s' t', d_update SL i s' t' st1 = UB) /\ d_delete SL i st1 = UB /\
     forall H2 (h2 : rhandler H2) y, s_each cf h2 [] st1 y = UB).
Proof.
  intros SL ENV HH O0 E1. sopen a K D. pose proof (f_cf _ _ _ ENV) as CF. pose proof (f_ok _ _ _ ENV) as OK.
  pose proof ENV as (_ & _ & LOK). pose proof K as [(R & W & V) B].
  assert (IV : sinv cf (s_forecast st orc) a) by (split; [now apply smem_orc|auto]).
  assert (NF : ~ a_full cf a).
  { intros F. pose proof (s_create_full cf CF tops lops (s_forecast st orc) a q IV F) as FF. rewrite FF in E1. discriminate. }
  destruct (must_grow_dec cf (s_forecast st orc) a IV) as [G|NG].
  2:{ exfalso. destruct (s_create_succ cf CF tops lops LOK (s_forecast st orc) a q IV NF) as (st3 & _ & _ & C); [tauto|].
      rewrite C in E1. discriminate. }
  pose proof (s_create_noindex cf CF tops lops (s_forecast st orc) a q IV G (O0 _ _)) as F. rewrite F in E1.
  injection E1 as <- <-. split; auto. destruct G as (G1 & G2 & G3).
  pose proof (sm_dcap _ _ _ _ _ R) as DC. pose proof (sm_len _ _ _ _ _ R) as LE. pose proof (ok_step _ CF) as SP.
  change (s_dcap (s_forecast st orc)) with (s_dcap st); set (st1 := s_remem (s_forecast st orc) (s_dcap st + c_step cf) (next_orc (s_forecast st orc))).
  assert (VU : s_view st1 = UB).
  { unfold s_view. change (s_dlen st1) with (s_dlen st). change (s_dcap st1) with (s_dcap st + c_step cf).
    destruct (N.eqb_spec (s_dlen st) (s_dcap st + c_step cf)); [lia|reflexivity]. }
  assert (GU : forall i, a_map a i <> None -> s_get_link cf st1 i = UB).
  { intros i I. apply (wf_dom _ W) in I as [I1 I2]. unfold s_get_link, s_exists, s_is_unused, s_header.
    change (s_ilen st1) with (s_ilen st). change (sh_alloc st1) with (sh_alloc st). change (sh_first st1) with (sh_first st).
    destruct (N.ltb_spec 0 (s_ilen st)); [|lia]. cbn [obind]. rewrite (sm_alloc _ _ _ _ _ R), (sm_first _ _ _ _ _ R), G1, (ok_istart _ CF).
    destruct (N.leb_spec 1 i); [|lia]. destruct (N.leb_spec i (a_top a)); [|lia]. cbn [andb hd].
    destruct (N.eqb_spec 0 i); [lia|]. cbn [negb]. rewrite rd_ok by lia. cbn [obind]. unfold s_get_data. rewrite VU. reflexivity. }
  split; [reflexivity|]. intros i s t L. apply (ob_link cf _ _ _ OK _ _ _ _ _ K) in L.
  assert (GI : s_get_link cf st1 i = UB) by (apply GU; congruence). split; auto. split; [|split].
  - intros s' t'. unfold d_update, d_update_by, d_update_by_with. cbn [li_update SL split_links]. unfold s_update.
    change (qget [i] 0) with (Val i). change (qget [i; s'; t'] 1) with (Val s'). change (qget [i; s'; t'] 2) with (Val t').
    cbn [obind]. rewrite GI. reflexivity.
  - unfold d_delete, d_delete_by, d_delete_by_with. cbn [li_delete SL split_links]. unfold s_delete.
    change (qget [i] 0) with (Val i). cbn [obind]. rewrite GI. reflexivity.
  - intros H2 h2 y. cbn [s_each]. unfold s_each_all, s_header. change (s_ilen st1) with (s_ilen st). change (sh_alloc st1) with (sh_alloc st).
    destruct (N.ltb_spec 0 (s_ilen st)); [|lia]. cbn [obind]. rewrite (sm_alloc _ _ _ _ _ R).
    pose proof (awf_some _ _ _ W L) as [IR _].
    assert (R1 : exists l, range1 (a_top a) = 1 :: l).
    { unfold range1. destruct (N.to_nat (a_top a)) eqn:E; [lia|]. cbn [seq map]. eexists. reflexivity. }
    destruct R1 as (l & ->). cbn [s_each_idx]. rewrite GU; [reflexivity|].
    apply (wf_dom _ W). rewrite G1. split; [lia|intros []].
Qed.
Lemma L_C45_split_index_always_nonvacuous : exists st d orc st1, s_hist ex_cf ref_tree_ops ref_list_ops st d /\
  is_link ex_S st 1 0 0 /\ is_link ex_S st 2 1 1 /\ (forall a b, orc 0%nat a b = NoIndex) /\
  s_create ex_cf ref_tree_ops ref_list_ops (fun (x : N) _ _ => (x, Continue)) [] (s_forecast st orc) 0 = Val (st1, 0, Err AllocFailed).
Proof.
  set (l := [Cr; Cr; Cr; Cr; Cr; Cr; Up 2 1 1]).
  destruct (ex_sreach l) as (d & HH & _); [vm_compute; reflexivity..|].
  exists (ex_sst l), d, no_index_once.
  exists (match s_create ex_cf ref_tree_ops ref_list_ops (fun (x : N) _ _ => (x, Continue)) [] (s_forecast (ex_sst l) no_index_once) 0 with
          Val (s, _, _) => s | _ => ex_sstart end).
  sp. do 2 (split; [vm_compute; reflexivity|]). split; [reflexivity|]. vm_compute; reflexivity.
Qed.

(** * C30 *)
(** The two stores never agree on a null source: as long as there is no hole the one finds
    each pair with a null source and a target that is a link, the other none. *)
Lemma L_C30_null_source_always cf tops lops us ss i t :
  let U := unit_links cf tops lops in let SL := split_links cf tops lops in
  unit_env cf tops lops -> twins cf tops lops us ss -> no_hole SL ss -> is_link SL ss i 0 t -> linked SL ss t ->
  d_search cf U us 0 t = Val None /\ exists j, is_link SL ss j 0 t /\ d_search cf SL ss 0 t = Val (Some j).
Proof.
  intros U SL ENV TW N L LT. destruct (twins_inv cf tops lops ENV us ss TW) as (a & K1 & K).
  pose proof (f_cf _ _ _ ENV) as CF. pose proof (any0 cf CF) as A0. pose proof (f_ok _ _ _ ENV) as OK.
  pose proof (e_ok _ _ _ ENV) as UOK.
  pose proof (lo_wf _ _ _ _ OK _ _ K) as W. apply (ob_link cf _ _ _ OK _ _ _ _ _ K) in L.
  apply (ob_linked cf _ _ _ OK _ _ _ K) in LT. destruct (a_map a t) as [[u v]|] eqn:LT'; [|congruence].
  pose proof (awf_some _ _ _ W LT') as [TR _]. pose proof K as [(R & _ & VV) _]. pose proof (all_placed_tpl a VV) as V.
  pose proof (sm_iend _ _ _ _ _ R). pose proof (ok_iend _ CF).
  assert (NH : a_free a = []).
  { destruct (a_free a) as [|k f] eqn:E; auto. exfalso. apply (N k). apply (ob_hole cf _ _ _ OK _ _ _ K). rewrite E. now left. }
  split.
  - destruct (g_null cf CF _ U _ UOK (e_spq _ _ _ ENV) us a [c_any cf; 0; t] K1) as [V1 _]; [discriminate|cbn; auto|].
    unfold d_search, d_find, d_each_by. rewrite V1. reflexivity.
  - destruct (s_it_search_ok cf ss a (spl a) (tpl a) 0 t R) as (r & E & [[-> NO]|[P M]]); [lia|lia| |].
    + exfalso. apply (NO i); auto. unfold tpl. rewrite L. unfold place_of. rewrite LT'. destruct (N.eqb_spec t 0); [lia|reflexivity].
    + exists r. pose proof M as M2. apply (ob_link cf _ _ _ OK _ _ _ _ _ K) in M2. split; [exact M2|].
      pose proof (awf_some _ _ _ W M) as [RR _].
      unfold d_search, d_find, d_each_by. cbn [li_each SL split_links]. openq CF.
      rewrite (s_is_virtual_ok cf _ _ _ _ 0 R V), (s_is_virtual_ok cf _ _ _ _ t R V). cbn [obind]. rewrite N.eqb_refl.
      destruct (N.eqb_spec 0 (c_any cf)); [congruence|]. destruct (N.eqb_spec t (c_any cf)); [lia|]. cbn [andb].
      unfold isvirt. cbn [N.eqb]. rewrite NH, LT'. destruct (N.eqb_spec t 0); [lia|].
      unfold s_search. cbn [andb]. rewrite E. cbn [obind]. rewrite (ok_null _ CF). destruct (N.eqb_spec r 0); [lia|].
      change (s_get_link cf ss r = Val (Some (mkLink r 0 t))) in M2. rewrite M2. reflexivity.
Qed.
Lemma L_C30_null_source_nonvacuous : exists us ss, twins ex_cf ref_tree_ops ref_list_ops us ss /\ no_hole ex_S ss /\
  is_link ex_S ss 1 0 2 /\ is_link ex_S ss 2 0 2 /\ linked ex_S ss 2.
Proof.
  set (l := [Cr; Cr; Up 1 0 2; Up 2 0 2]).
  destruct (ex_twins l) as [TW K]; [vm_compute; reflexivity..|].
  exists (ex_tu l), (ex_ts l). sp. split.
  { intros k N. apply (ob_hole ex_cf _ ex_S _ (f_ok _ _ _ ex_env) _ _ _ K) in N. vm_compute in N. exact N. }
  do 2 (split; [vm_compute; reflexivity|]). exists 0, 2. vm_compute; reflexivity.
Qed.

(** * C53 *)
(** A pair that refers to the index given to a new link is lost by the creation: it stays,
    but search does not find it any more, and get_or_create makes a second link of it. *)
Lemma L_C53_dangling_pair_always_lost cf tops lops st d s t k st1 :
  let SL := split_links cf tops lops in
  unit_env cf tops lops -> s_hist cf tops lops st d ->
  s <> 0 -> t <> 0 -> s <> c_any cf -> t <> c_any cf -> s <> k -> t <> k ->
  d_get_or_create cf SL s t st = Val (st1, Ok k) -> no_link SL st k ->
  is_link SL st1 k s t /\ frame SL st st1 k /\
  (forall y u, is_link SL st y k u -> u <> c_any cf ->
     d_search cf SL st1 k u = Val None /\ d_get_or_create cf SL k u st1 = d_create_link SL k u st1) /\
  (forall y u, is_link SL st y u k -> u <> 0 -> u <> c_any cf ->
     d_search cf SL st1 u k = Val None /\ d_get_or_create cf SL u k st1 = d_create_link SL u k st1).
Proof.
  intros SL ENV HH S0 T0 SA TA SK TK E NL.
  assert (E2 : d_create_link SL s t st = Val (st1, Ok k)).
  { destruct (L_C52_split_search_partial cf tops lops st d s t ENV HH S0) as [[E1 N]|(i & E1 & L)]; auto; try (intros; contradiction).
    - unfold d_get_or_create in E. unfold SL in E at 1. rewrite E1 in E. exact E.
    - exfalso. unfold d_get_or_create in E. unfold SL in E at 1. rewrite E1 in E. cbn [obind] in E. injection E as E3 E4. subst k.
      unfold no_link, is_link in *. unfold SL in NL. congruence. }
  clear E. rename E2 into E. sopen a K D. pose proof (f_cf _ _ _ ENV) as CF. pose proof (f_ok _ _ _ ENV) as OK.
  pose proof (lo_wf _ _ _ _ OK _ _ K) as W. pose proof (any0 cf CF) as A0. pose proof (ok_iend _ CF) as IE.
  unfold d_create_link, d_create_link_with, d_create_with, d_create_by_with in E. cbn [li_create SL split_links] in E.
  destruct (s_create_obs cf tops lops ENV st a d [] HH K) as [(_ & _ & _ & P)|[[_ F]|[(_ & _ & st2 & _ & _ & _ & F)|(NF & st2 & C2 & SM & _ & C)]]].
  - rewrite P in E. discriminate.
  - rewrite F in E. discriminate.
  - rewrite F in E. discriminate.
  - rewrite C in E. cbn [obind wadapt fst snd fuse_call l_index rmap] in E.
    destruct (a_next_none a W) as [MN N0]. set (n := a_next a) in *.
    set (b := a_create a) in *.
    assert (BM : forall x, a_map b x = upd (a_map a) n (Some (0, 0)) x) by (intros x; unfold b; now rewrite a_create_map).
    assert (AP : all_placed b (tpl a)).
    { apply all_placed_create, all_placed_tpl. apply K. }
    destruct (s_relink_any cf tops lops ENV st2 b (spl a) (tpl a) n 0 0 s t SM AP) as (st3 & RL & R3 & _).
    { now rewrite BM, upd_same. }
    { left. now rewrite BM, upd_same. }
    { unfold spl. now rewrite MN. }
    { unfold tpl. now rewrite MN. }
    assert (W3 : awf (a_update b n s t)) by (apply awf_update; [now apply awf_create|rewrite BM, upd_same; discriminate]).
    assert (UP : forall H (h : whandler H) x, s_update cf tops h [n] [n; s; t] st2 x =
      let (x', f) := h x (mkLink n 0 0) (mkLink n s t) in Val (st3, x', Ok f)).
    { intros H h x. unfold s_update.
      change (qget [n] 0) with (Val n). change (qget [n; s; t] 1) with (Val s). change (qget [n; s; t] 2) with (Val t).
      cbn [obind]. rewrite (s_get_link_ok cf CF _ _ _ _ n SM AP), BM, upd_same. cbn [obind olink l_source l_target]. rewrite RL. reflexivity. }
    unfold d_update_with, d_update_by_with in E. cbn [li_update SL split_links] in E. rewrite UP in E.
    cbn [obind wadapt fst snd fuse_call l_index rmap] in E. injection E as E3 E4. subst k st3.
    assert (FI : forall v, filed b n 0 v = place_of b v).
    { intros v. unfold filed. cbn [N.eqb negb]. now rewrite andb_false_r. }
    rewrite !FI in R3. set (c := a_update b n s t) in *.
    set (sP := upd (spl a) n (place_of b s)) in *. set (tP := upd (tpl a) n (place_of b t)) in *.
    assert (CM : forall x, a_map c x = upd (a_map a) n (Some (s, t)) x).
    { intros x. unfold c. cbn [a_map a_update]. unfold upd. destruct (N.eqb_spec x n) as [->|NE]; auto. rewrite BM, upd_other; auto. }
    assert (V3 : all_placed c tP).
    { intros v x y M. rewrite CM in M. unfold tP, upd in *. destruct (N.eqb_spec v n) as [->|NE].
      - right. intros P. now apply place_of_out in P.
      - eapply all_placed_tpl; [apply K|eauto]. }
    assert (SI : forall x, sP x <> Int n).
    { intros x. unfold sP, upd. destruct (N.eqb_spec x n); intros P.
      - apply place_of_int in P as (P & _). congruence.
      - unfold spl in P. destruct (a_map a x) as [[u v]|]; [|discriminate]. apply place_of_int in P as (-> & _ & P). contradiction. }
    assert (TI : forall x, tP x <> Int n).
    { intros x. unfold tP, upd. destruct (N.eqb_spec x n); intros P.
      - apply place_of_int in P as (P & _). congruence.
      - unfold tpl in P. destruct (a_map a x) as [[u v]|]; [|discriminate]. apply place_of_int in P as (-> & _ & P). contradiction. }
    assert (NT : n <= a_top c).
    { assert (X : a_map c n <> None) by (rewrite CM, upd_same; discriminate). apply (wf_dom _ W3) in X. lia. }
    pose proof (sm_iend _ _ _ _ _ R3) as TE.
    destruct (s_is_walk cf st1 c sP tP n R3 N0 NT) as (U1 & _ & U2 & _ & U3).
    assert (U1 = []) as ->. { destruct U1 as [|u U1]; auto. exfalso. apply (SI u). apply U2. now left. }
    destruct (s_it_walk cf st1 c sP tP n R3 N0 NT) as (W1 & _ & W2 & _ & W4).
    assert (W1 = []) as ->. { destruct W1 as [|u W1]; auto. exfalso. apply (TI u). apply W2. now left. }
    assert (SS : forall u, s_is_search st1 n u = Val 0).
    { intros u. destruct (s_is_search_ok cf st1 c sP tP n u R3 N0 NT) as (r & -> & [[-> _]|[P _]]); auto. now apply SI in P. }
    assert (TT : forall u, s_it_search st1 u n = Val 0).
    { intros u. destruct (s_it_search_ok cf st1 c sP tP u n R3 N0 NT) as (r & -> & [[-> _]|[P _]]); auto. now apply TI in P. }
    assert (VN : s_is_virtual st1 n = Val false).
    { rewrite (s_is_virtual_ok cf _ _ _ _ n R3 V3). unfold isvirt. rewrite CM, upd_same. destruct (N.eqb_spec n 0); [contradiction|reflexivity]. }
    split. { unfold is_link. cbn [li_get SL split_links]. rewrite (s_get_link_ok cf CF _ _ _ _ n R3 V3), CM, upd_same. reflexivity. }
    split.
    { intros j J. unfold SL. cbn [li_get split_links]. rewrite (s_get_link_ok cf CF _ _ _ _ j R3 V3), CM, upd_other by auto.
      symmetry. exact (lo_get _ _ _ _ OK _ _ j K). }
    split.
    + intros y u L UA. apply (ob_link cf _ _ _ OK _ _ _ _ _ K) in L.
      assert (U0 : u <> 0). { intros ->. destruct K as [(_ & _ & VV) _]. apply VV in L. contradiction. }
      assert (ES : d_search cf SL st1 n u = Val None); [|split; auto; unfold d_get_or_create; now rewrite ES].
      unfold d_search, d_find, d_each_by. cbn [li_each SL split_links]. openq CF.
      rewrite VN, (s_is_virtual_ok cf _ _ _ _ u R3 V3). cbn [obind]. rewrite N.eqb_refl.
      destruct (N.eqb_spec n (c_any cf)); [lia|]. destruct (N.eqb_spec u (c_any cf)); [contradiction|]. cbn [andb].
      unfold isvirt. destruct (N.eqb_spec u 0); [contradiction|]. unfold s_search. destruct (a_map c u) as [p|] eqn:MU; cbn [andb].
      * rewrite U3. cbn [obind length N.of_nat].
        assert (UT : u <= a_top c) by (apply (wf_dom _ W3); congruence).
        destruct (s_it_walk cf st1 c sP tP u R3 U0 UT) as (X1 & _ & X2 & _ & X4). rewrite X4. cbn [obind].
        destruct (N.ltb_spec (N.of_nat (length X1)) 0); [lia|]. rewrite SS. cbn [obind]. rewrite (ok_null _ CF). reflexivity.
      * rewrite SS. cbn [obind]. rewrite (ok_null _ CF). reflexivity.
    + intros y u L U0 UA. apply (ob_link cf _ _ _ OK _ _ _ _ _ K) in L.
      assert (ES : d_search cf SL st1 u n = Val None); [|split; auto; unfold d_get_or_create; now rewrite ES].
      unfold d_search, d_find, d_each_by. cbn [li_each SL split_links]. openq CF.
      rewrite VN, (s_is_virtual_ok cf _ _ _ _ u R3 V3). cbn [obind]. rewrite N.eqb_refl.
      destruct (N.eqb_spec n (c_any cf)); [lia|]. destruct (N.eqb_spec u (c_any cf)); [contradiction|]. cbn [andb].
      unfold isvirt. destruct (N.eqb_spec u 0); [contradiction|]. unfold s_search. destruct (a_map c u) as [p|] eqn:MU; cbn [andb].
      * assert (UT : u <= a_top c) by (apply (wf_dom _ W3); congruence).
        destruct (s_is_walk cf st1 c sP tP u R3 U0 UT) as (X1 & _ & X2 & _ & X4). rewrite X4. cbn [obind]. rewrite W4. cbn [obind length N.of_nat].
        destruct (N.ltb_spec 0 (N.of_nat (length X1))).
        -- rewrite TT. cbn [obind]. rewrite (ok_null _ CF). reflexivity.
        -- destruct (s_is_search_ok cf st1 c sP tP u n R3 U0 UT) as (r & -> & [[-> _]|[P _]]).
           ++ cbn [obind]. rewrite (ok_null _ CF). reflexivity.
           ++ exfalso. apply X2 in P. destruct X1; [destruct P|]. cbn [length] in *. lia.
      * rewrite TT. cbn [obind]. rewrite (ok_null _ CF). reflexivity.
Qed.
Lemma L_C53_dangling_pair_nonvacuous : exists st d st1, s_hist ex_cf ref_tree_ops ref_list_ops st d /\ distinct_pairs ex_S st /\
  no_link ex_S st 3 /\ is_link ex_S st 2 3 1 /\ d_search ex_cf ex_S st 3 1 = Val (Some 2) /\
  is_link ex_S st 4 4 3 /\ d_search ex_cf ex_S st 4 3 = Val (Some 4) /\
  d_get_or_create ex_cf ex_S 1 4 st = Val (st1, Ok 3).
Proof.
  set (l := [Cr; Cr; Cr; Cr; Up 1 1 1; Up 2 3 1; Up 4 4 3; De 3]).
  destruct (ex_sreach l) as (d & HH & K); [vm_compute; reflexivity..|].
  exists (ex_sst l), d, (match d_get_or_create ex_cf ex_S 1 4 (ex_sst l) with Val (s, _) => s | _ => ex_sstart end).
  sp. split; [apply ex_sdistinct; vm_compute; reflexivity|]. do 5 (split; [vm_compute; reflexivity|]). vm_compute; reflexivity.
Qed.
