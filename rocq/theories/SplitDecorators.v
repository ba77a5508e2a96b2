(** Claims about the decorators over the two-memory store.  Its obligations are stronger than
    those of a [good_store], and count_by is wrong for pairs with an outer source, so the
    theorems of DecoratorClaims.v do not apply. *)
From Coq Require Import NArith List Bool Lia Permutation Sorted.
From Verif Require Import Base Trees Lists Spec Iface UnitModel UnitInv UnitOps UnitLinks LinkModel SplitModel Forest
  SplitInv SplitReads SplitOps SplitWrites SplitLinks Doublets Obs DoubletsOK Hist Claims TreeImpl UnitHist SplitHist
  SplitClaims DefaultClaims SplitDefaults Decorators GoodStore UnitClaims DecoratorClaims.
Import ListNotations.
Open Scope N_scope.

(** A pair of two actual references. *)
Definition full_pair (cf : cfg) (s t : N) : Prop := s <> 0 /\ t <> 0 /\ s <> c_any cf /\ t <> c_any cf.

Section Aux.
  Variables (cf : cfg) (tops : tree_ops) (lops : list_ops).
  Hypothesis ENV : unit_env cf tops lops.
  Notation SL := (split_links cf tops lops).
  Notation SH := (sh cf tops lops).
  Notation any := (c_any cf).
  Notation hist_st st := (exists d, s_hist cf tops lops st d).
  Let CF : cfg_ok cf := f_cf cf tops lops ENV.
  Let OK : links_ok cf (split_spec cf) SL SH := sh_links_ok cf tops lops ENV.

  Lemma sd_dec st i : hist_st st -> linked SL st i \/ no_link SL st i.
  Proof.
    intros (d & HH). shopen a K D. destruct (a_map a i) as [[s t]|] eqn:E.
    - left. apply (ob_linked cf _ _ _ OK _ _ _ K). congruence.
    - right. now apply (ob_none cf _ _ _ OK _ _ _ K).
  Qed.
  Lemma sd_range st i : hist_st st -> linked SL st i -> i <> 0 /\ i <> any.
  Proof.
    intros (d & HH) L. shopen a K D. apply (ob_linked cf _ _ _ OK _ _ _ K) in L.
    destruct (exists_range cf _ SL _ OK _ _ _ CF K L) as (A & B & _). auto.
  Qed.

  (** *** found *)
  Lemma sd_found_linked st s t : hist_st st -> linked SL st s -> t <> 0 -> t <> any ->
    (d_found SL st [any; s; t] = Val false /\ forall i, ~ is_link SL st i s t) \/
    (d_found SL st [any; s; t] = Val true /\ exists i, is_link SL st i s t).
  Proof.
    intros HS LS T0 TA. destruct (sd_range _ _ HS LS) as [S0 SA]. destruct HS as (d & HH). shopen a K D.
    apply (ob_linked cf _ _ _ OK _ _ _ K) in LS.
    assert (Q : sp_query (split_spec cf) a [any; s; t]).
    { split; [cbn; tauto|]. cbn. intros _. split; [congruence|]. split; [congruence|]. intros _ M. contradiction. }
    destruct (lo_query _ _ _ _ OK _ _ _ K Q) as (L & VO & _ & C).
    unfold d_found, d_count_by. rewrite C. cbn [obind].
    destruct (search_visits cf _ SL _ OK _ _ _ _ _ K SA TA S0 VO) as [[-> M]|(i & -> & M)]; [left|right].
    - split; [reflexivity|]. intros i L. apply (M i). now apply (ob_link cf _ _ _ OK _ _ _ _ _ K).
    - split; [reflexivity|]. exists i. now apply (ob_link cf _ _ _ OK _ _ _ _ _ K).
  Qed.
  (** With an outer source the target is not looked at. *)
  Lemma sd_found_outer st s t j t' : hist_st st -> no_link SL st s -> s <> 0 -> s <> any -> is_link SL st j s t' ->
    d_found SL st [any; s; t] = Val true.
  Proof.
    intros (d & HH) NS S0 SA L. shopen a K D. apply (ob_none cf _ _ _ OK _ _ _ K) in NS.
    apply (ob_link cf _ _ _ OK _ _ _ _ _ K) in L. pose proof (proj1 (proj1 K)) as SI. pose proof SI as (R & W & VI).
    assert (EQ : s_count cf st [any; s; t] = s_count cf st [any; s; any]).
    { unfold s_count. rewrite (ok_ipart _ CF), (ok_spart _ CF), (ok_tpart _ CF), !qget_0, !qget_1, !qget_2. cbn [obind].
      rewrite !(s_is_virtual_ok _ _ _ _ _ _ R (all_placed_tpl _ VI)). cbn [obind].
      rewrite (isvirt_none a s NS) by congruence. rewrite N.eqb_refl.
      destruct (N.eqb_spec s any); [contradiction|]. reflexivity. }
    unfold d_found, d_count_by. cbn [li_count split_links]. rewrite EQ.
    rewrite (s_count_ok cf CF st a SI).
    - cbn [obind]. unfold acount, is_search. rewrite N.eqb_refl. cbn [negb andb]. rewrite andb_false_r.
      unfold avisits. rewrite N.eqb_refl. destruct (N.eqb_spec s any); [contradiction|].
      destruct (N.eqb_spec s 0); [contradiction|].
      match goal with |- context [length ?X] => destruct X as [|l ll] eqn:EF end; [exfalso|reflexivity].
      assert (IL : In (mkLink j s t') []); [|destruct IL].
      rewrite <- EF. apply filter_In. split; [now apply (in_alinks' _ _ W)|]. cbn. now rewrite N.eqb_refl.
    - cbn. intros _. pose proof (any0 cf CF); split; [congruence|].
      split; [congruence|]. intros _ _. split; [|auto]. right. exists j, s, t'. auto.
  Qed.

  Lemma sd_search st s t : hist_st st -> full_pair cf s t ->
    (d_search cf SL st s t = Val None /\ forall i, ~ is_link SL st i s t) \/
    (exists i, d_search cf SL st s t = Val (Some i) /\ is_link SL st i s t).
  Proof.
    intros (d & HH) (S0 & T0 & SA & TA). apply (L_C52_split_search_partial cf tops lops st d s t ENV HH S0); auto.
    intros E. contradiction.
  Qed.
  Lemma sd_found_held st s t j : hist_st st -> full_pair cf s t -> is_link SL st j s t ->
    d_found SL st [any; s; t] = Val true.
  Proof.
    intros HS (S0 & T0 & SA & TA) L. destruct (sd_dec st s HS) as [LS|NS].
    - destruct (sd_found_linked st s t HS LS T0 TA) as [[_ E]|[E _]]; [destruct (E j L)|exact E].
    - eapply sd_found_outer; eauto.
  Qed.

  (** *** The operations with a handler *)
  Lemma sd_update st q ch i s t : hist_st st -> linked SL st i -> s_oku SL st i s t ->
    qget q 0 = Val i -> qget ch 1 = Val s -> qget ch 2 = Val t ->
    exists st' b, hist_st st' /\ calls_once (fun H h x => li_update SL H h q ch st x) st' b (mkLink i s t) /\
      is_link SL st' i s t /\ frame SL st st' i.
  Proof.
    intros (d & HH) (os & ot & L) OU Q1 Q2 Q3.
    destruct (L_C25_update cf tops lops st d q ch i os ot s t ENV HH L OU Q1 Q2 Q3) as (st' & HH' & C & L' & F & _).
    exists st', (mkLink i os ot). split; [eauto|]. auto.
  Qed.
  Lemma sd_update_none st q ch i s t : hist_st st -> no_link SL st i ->
    qget q 0 = Val i -> qget ch 1 = Val s -> qget ch 2 = Val t ->
    fails_with (fun H h x => li_update SL H h q ch st x) st (NotExists i).
  Proof. intros (d & HH) NL Q1 Q2 Q3. eapply (L_C25_missing_links cf tops lops st d q ch i s t ENV HH NL Q1 Q2 Q3). Qed.
  Lemma sd_delete st q i s t : hist_st st -> is_link SL st i s t -> s_okd SL st i -> qget q 0 = Val i ->
    exists st', hist_st st' /\ calls_once (fun H h x => li_delete SL H h q st x) st' (mkLink i s t) nothing /\
      no_link SL st' i /\ frame SL st st' i.
  Proof.
    intros (d & HH) L OD Q.
    destruct (L_C25_delete cf tops lops st d q i s t ENV HH L OD Q) as (st' & HH' & C & N' & F & _).
    exists st'. split; [eauto|]. auto.
  Qed.
  Lemma sd_delete_none st q i : hist_st st -> no_link SL st i -> qget q 0 = Val i ->
    fails_with (fun H h x => li_delete SL H h q st x) st (NotExists i).
  Proof.
    intros (d & HH) NL Q. eapply (L_C25_missing_links cf tops lops st d q [0; 0; 0] i 0 0 ENV HH NL Q); reflexivity.
  Qed.
  Lemma sd_update_with st i s t : hist_st st -> linked SL st i -> s_oku SL st i s t ->
    exists st' b, hist_st st' /\ is_link SL st' i s t /\ frame SL st st' i /\
      forall H (h : whandler H) x, to_flow (d_update_with SL (uw_of h) i s t st x) =
        Val (st', fst (h x b (mkLink i s t)), Ok (snd (h x b (mkLink i s t)))).
  Proof.
    intros HS L OU. destruct (sd_update st [i] [i; s; t] i s t HS L OU eq_refl eq_refl eq_refl) as (st' & b & K' & C & L' & F).
    exists st', b. split; auto. split; auto. split; auto. intros H h x. unfold d_update_with, d_update_by_with, to_flow.
    rewrite (wadapt_once _ _ _ _ _ _ _ _ C). cbn [obind rmap]. now rewrite uw_fst, uw_flow.
  Qed.
  Lemma sd_update_with_none st i s t : hist_st st -> no_link SL st i ->
    forall H (h : whandler H) x, to_flow (d_update_with SL (uw_of h) i s t st x) = Val (st, x, Err (NotExists i)).
  Proof.
    intros K L H h x. pose proof (sd_update_none st [i] [i; s; t] i s t K L eq_refl eq_refl eq_refl) as C.
    unfold d_update_with, d_update_by_with, to_flow. now rewrite (wadapt_fail _ _ _ _ _ _ _ C).
  Qed.
  Lemma sd_delete_with st i s t : hist_st st -> is_link SL st i s t -> s_okd SL st i ->
    exists st', hist_st st' /\ no_link SL st' i /\ frame SL st st' i /\
      forall H (h : whandler H) x, exists o, d_delete_with SL (uw_of h) i st x =
        Val (st', fst (h x (mkLink i s t) nothing), Ok o).
  Proof.
    intros K L OD. destruct (sd_delete st [i] i s t K L OD eq_refl) as (st' & K' & C & L' & F).
    exists st'. split; auto. split; auto. split; auto. intros H h x. unfold d_delete_with, d_delete_by_with.
    rewrite (wadapt_once _ _ _ _ _ _ _ _ C). rewrite uw_fst. eauto.
  Qed.
  Lemma sd_delete_with_none st i : hist_st st -> no_link SL st i ->
    forall H (h : whandler H) x, d_delete_with SL (uw_of h) i st x = Val (st, x, Err (NotExists i)).
  Proof.
    intros K L H h x. pose proof (sd_delete_none st [i] i K L eq_refl) as C.
    unfold d_delete_with, d_delete_by_with. now rewrite (wadapt_fail _ _ _ _ _ _ _ C).
  Qed.

  (** Histories through a decorator that leaves creation and deletion alone keep pairs
      distinct if its updates do. *)
  Lemma sd_hist (V : LinksI sst) (okU : sst -> N -> N -> N -> Prop) st0 :
    li_create V = li_create SL -> li_delete V = li_delete SL ->
    hist_st st0 -> distinct_pairs SL st0 ->
    (forall st H (h : whandler H) q ch i s t x st' x' r, hist_st st -> distinct_pairs SL st ->
       qget q 0 = Val i -> qget ch 1 = Val s -> qget ch 2 = Val t -> okU st i s t ->
       li_update V H h q ch st x = Val (st', x', r) -> hist_st st' /\ distinct_pairs SL st') ->
    forall st d, histc V (fun st => st = st0) (fun _ _ => False) okU (fun _ _ => True) (s_okc SL) st d ->
      hist_st st /\ distinct_pairs SL st.
  Proof.
    intros EC ED G0 D0 UP st d HH.
    assert (DEL : forall st H (h : whandler H) q i x st' x' r, hist_st st -> distinct_pairs SL st -> qget q 0 = Val i ->
       li_delete V H h q st x = Val (st', x', r) -> hist_st st' /\ distinct_pairs SL st').
    { intros st1 H h q i x st' x' r K D Q E. rewrite ED in E. destruct (sd_dec st1 i K) as [(s & t & L)|L].
      - destruct (sd_delete _ q i s t K L (s_okd_distinct _ _ _ _ D) Q) as (st2 & K2 & C & NL & F). rewrite C in E.
        injection E as <- _ _. split; auto. eapply dist_remove; eauto.
      - pose proof (sd_delete_none _ _ _ K L Q) as F. rewrite F in E. injection E as <- _ _. auto. }
    induction HH as [st ->|st d H h q x st' x' r HH IH E OC|st d H h q ch i s t x st' x' r HH IH Q1 Q2 Q3 OKU E
      |st d H h q i x st' x' f HH IH Q _ E|st d H h q i x st' x' f HH IH Q _ E|st d st' HH IH []].
    - auto.
    - destruct IH as [(d0 & K) D]. rewrite EC in E.
      assert (HS' : hist_st st').
      { exists d0. exact (histc_create _ _ _ _ _ _ st d0 H h q x st' x' r K E OC). }
      split; auto. pose proof K as KH. clear HH. rename K into HH. shopen a K DD. pose proof K as [K0 _].
      destruct (s_create_obs cf tops lops ENV st a d0 q KH K0) as
        [(_ & _ & _ & F)|[[_ F]|[(_ & _ & st2 & _ & SM & _ & F)|(_ & st2 & CR & _ & _ & F)]]];
        specialize (F H h x); cbn [li_create split_links] in E; rewrite F in E; try discriminate; injection E as <- _ _.
      + exact D.
      + eapply dist_same; eauto.
      + destruct CR as (_ & _ & L & FR & _). eapply (dist_set SL st st2 _ 0 0); eauto.
    - destruct IH as [K D]. eapply UP; eauto.
    - destruct IH as [K D]. eapply DEL; eauto.
    - destruct IH as [K D]. eapply DEL; eauto.
  Qed.

  (** *** UniqueValidator *)
  Lemma suv_held st q ch j s t : hist_st st -> full_pair cf s t -> is_link SL st j s t ->
    qget ch 1 = Val s -> qget ch 2 = Val t ->
    fails_with (fun H h x => li_update (unique_validator cf SL) H h q ch st x) st (AlreadyExists s t).
  Proof.
    intros K FP L Q2 Q3 H h x. cbn [unique_validator li_update]. rewrite Q2, Q3. cbn [obind].
    rewrite (sd_found_held st s t j K FP L). reflexivity.
  Qed.
  Lemma suv_hist st0 st d : hist_st st0 -> distinct_pairs SL st0 ->
    histc (unique_validator cf SL) (fun st => st = st0) (fun _ _ => False)
      (fun st i s t => full_pair cf s t /\ s_oku SL st i s t) (fun _ _ => True) (s_okc SL) st d ->
    hist_st st /\ distinct_pairs SL st.
  Proof.
    intros K0 D0. apply sd_hist; auto.
    intros st1 H h q ch i s t x st' x' r K D Q1 Q2 Q3 [FP OU] E.
    destruct (sd_search st1 s t K FP) as [(_ & NH)|(j & _ & L)].
    - cbn [unique_validator li_update] in E. rewrite Q2, Q3 in E. cbn [obind] in E.
      destruct (d_found SL st1 [any; s; t]) as [[]| | |]; cbn [obind] in E; try discriminate.
      { injection E as <- _ _. auto. }
      destruct (sd_dec st1 i K) as [L|L].
      + destruct (sd_update st1 q ch i s t K L OU Q1 Q2 Q3) as (st2 & b & K2 & C & L2 & F).
        rewrite C in E. injection E as <- _ _. split; auto. eapply dist_set; eauto.
      + pose proof (sd_update_none st1 q ch i s t K L Q1 Q2 Q3) as F. rewrite F in E. injection E as <- _ _. auto.
    - pose proof (suv_held st1 q ch j s t K FP L Q2 Q3) as F. rewrite F in E. injection E as <- _ _. auto.
  Qed.

  (** *** UniqueResolver *)
  Notation UR := (unique_resolver cf SL).
  Lemma sur_free st q ch i s t : hist_st st -> full_pair cf s t -> (forall j, ~ is_link SL st j s t) ->
    linked SL st i -> s_oku SL st i s t -> qget q 0 = Val i -> qget ch 1 = Val s -> qget ch 2 = Val t ->
    exists st' b, hist_st st' /\ calls_once (fun H h x => li_update UR H h q ch st x) st' b (mkLink i s t) /\
      is_link SL st' i s t /\ frame SL st st' i.
  Proof.
    intros K FP NH L OU Q1 Q2 Q3.
    destruct (sd_update_with st i s t K L OU) as (st' & b & K' & L' & F & C).
    exists st', b. split; auto. split; auto. intros H h x. cbn [unique_resolver li_update]. rewrite Q1, Q2, Q3. cbn [obind].
    destruct (sd_search st s t K FP) as [(E & _)|(k & _ & E)]; [|destruct (NH k E)].
    rewrite E. cbn [obind]. apply C.
  Qed.
  Lemma sur_missing st q ch i s t : hist_st st -> full_pair cf s t -> no_link SL st i ->
    qget q 0 = Val i -> qget ch 1 = Val s -> qget ch 2 = Val t ->
    fails_with (fun H h x => li_update UR H h q ch st x) st (NotExists i).
  Proof.
    intros K FP L Q1 Q2 Q3 H h x. cbn [unique_resolver li_update]. rewrite Q1, Q2, Q3. cbn [obind].
    destruct (sd_search st s t K FP) as [(E & _)|(k & E & _)]; rewrite E; cbn [obind].
    - now apply sd_update_with_none.
    - unfold then_ok. rewrite sd_delete_with_none; auto.
  Qed.
  (** The holder may be written again: it does not refer to itself. *)
  Lemma rewrite_ok st j s t : distinct_pairs SL st -> s <> j -> t <> j -> t <> 0 -> s_oku SL st j s t.
  Proof.
    intros D SJ TJ T0. right. split; [now apply distinct_separable|]. split; [contradiction|]. intros [E|E]; congruence.
  Qed.
  Lemma sur_other st q ch i j s t s0 t0 : hist_st st -> full_pair cf s t -> distinct_pairs SL st ->
    is_link SL st j s t -> j <> i -> s <> j -> t <> j -> is_link SL st i s0 t0 ->
    qget q 0 = Val i -> qget ch 1 = Val s -> qget ch 2 = Val t ->
    exists st' b, hist_st st' /\
      calls_twice (fun H h x => li_update UR H h q ch st x) st' (mkLink i s0 t0) nothing b (mkLink j s t) /\
      no_link SL st' i /\ frame SL st st' i.
  Proof.
    intros K FP D LJ JI SJ TJ LI Q1 Q2 Q3. pose proof FP as (S0 & T0 & _).
    destruct (sd_delete_with st i s0 t0 K LI (s_okd_distinct _ _ _ _ D)) as (st1 & K1 & N1 & F1 & C1).
    assert (LJ1 : is_link SL st1 j s t) by (now apply (link_frame _ _ _ _ _ _ _ F1 JI)).
    assert (D1 : distinct_pairs SL st1) by (eapply dist_remove; eauto).
    destruct (sd_update_with st1 j s t K1 (ex_intro _ _ (ex_intro _ _ LJ1)) (rewrite_ok _ _ _ _ D1 SJ TJ T0)) as (st2 & b & K2 & L2 & F2 & C2).
    exists st2, b. split; auto. split; [|split].
    - intros H h x. cbn [unique_resolver li_update]. rewrite Q1, Q2, Q3. cbn [obind].
      destruct (sd_search st s t K FP) as [(_ & E)|(k & E & LK)]; [destruct (E j LJ)|].
      assert (k = j) as -> by (apply (D k j s t LK LJ); congruence). rewrite E. cbn [obind]. unfold then_ok.
      destruct (C1 H h x) as (o & ->). cbn [obind]. apply C2.
    - unfold no_link. rewrite F2 by auto. exact N1.
    - intros k KI. destruct (N.eq_dec k j) as [->|KJ].
      + unfold is_link in L2, LJ. now rewrite L2, LJ.
      + rewrite F2, F1; auto.
  Qed.
  Lemma sur_own st q ch i s t : hist_st st -> full_pair cf s t -> distinct_pairs SL st -> is_link SL st i s t ->
    qget q 0 = Val i -> qget ch 1 = Val s -> qget ch 2 = Val t ->
    exists st', hist_st st' /\ no_link SL st' i /\ frame SL st st' i /\
      forall H (h : whandler H) x, li_update UR H h q ch st x =
        Val (st', fst (h x (mkLink i s t) nothing), Err (NotExists i)).
  Proof.
    intros K FP D LI Q1 Q2 Q3. pose proof FP as (S0 & T0 & _).
    destruct (sd_delete_with st i s t K LI (s_okd_distinct _ _ _ _ D)) as (st1 & K1 & N1 & F1 & C1).
    exists st1. split; auto. split; auto. split; auto.
    intros H h x. cbn [unique_resolver li_update]. rewrite Q1, Q2, Q3. cbn [obind].
    destruct (sd_search st s t K FP) as [(_ & E)|(k & E & LK)]; [destruct (E i LI)|].
    assert (k = i) as -> by (apply (D k i s t LK LI); congruence). rewrite E. cbn [obind]. unfold then_ok.
    destruct (C1 H h x) as (o & ->). cbn [obind]. now apply sd_update_with_none.
  Qed.
  Lemma sur_hist st0 st d : hist_st st0 -> distinct_pairs SL st0 ->
    histc UR (fun st => st = st0) (fun _ _ => False)
      (fun st i s t => full_pair cf s t /\ s_oku SL st i s t /\ forall j, is_link SL st j s t -> j <> i -> s <> j /\ t <> j)
      (fun _ _ => True) (s_okc SL) st d ->
    hist_st st /\ distinct_pairs SL st.
  Proof.
    intros K0 D0. apply sd_hist; auto.
    intros st1 H h q ch i s t x st' x' r K D Q1 Q2 Q3 (FP & OU & NS) E.
    destruct (sd_dec st1 i K) as [L|L].
    2:{ pose proof (sur_missing _ q ch i s t K FP L Q1 Q2 Q3) as F. rewrite F in E. injection E as <- _ _. auto. }
    destruct (sd_search st1 s t K FP) as [(_ & NH)|(j & _ & LJ)].
    - destruct (sur_free _ q ch i s t K FP NH L OU Q1 Q2 Q3) as (st2 & b & K2 & C & L2 & F2).
      rewrite C in E. injection E as <- _ _. split; auto. eapply dist_set; eauto.
    - destruct (N.eq_dec j i) as [->|JI].
      + destruct (sur_own _ q ch i s t K FP D LJ Q1 Q2 Q3) as (st2 & K2 & N2 & F2 & C). rewrite C in E. injection E as <- _ _.
        split; auto. eapply dist_remove; eauto.
      + destruct L as (s0 & t0 & L). destruct (NS j LJ JI) as [SJ TJ].
        destruct (sur_other _ q ch i j s t s0 t0 K FP D LJ JI SJ TJ L Q1 Q2 Q3) as (st2 & b & K2 & C & N2 & F2).
        rewrite C in E. injection E as <- _ _. split; auto. eapply dist_remove; eauto.
  Qed.
End Aux.

Ltac svc := first [apply out_ok; vm_compute; reflexivity | vm_compute; reflexivity].
(** no link of the store holds the pair *)
Ltac snolink K :=
  let x := fresh "x" in let L := fresh "L" in intros x; intros; intros L;
  let LK := fresh in assert (LK : linked ex_S _ x) by (eexists; eexists; exact L);
  apply (ob_top ex_cf _ ex_S _ (f_ok _ _ _ ex_env) _ _ K) in LK;
  each_index LK; try contradiction; vm_compute in L; discriminate.

(** * C71 The unique decorators over the two-memory store *)
Lemma L_C71_unique_validator_partial cf tops lops st d :
  let SL := split_links cf tops lops in
  unit_env cf tops lops -> s_hist cf tops lops st d ->
  (forall q ch j s t, full_pair cf s t -> is_link SL st j s t -> qget ch 1 = Val s -> qget ch 2 = Val t ->
     fails_with (fun H h x => li_update (unique_validator cf SL) H h q ch st x) st (AlreadyExists s t)) /\
  (forall q ch s t, linked SL st s -> t <> 0 -> t <> c_any cf -> (forall j, ~ is_link SL st j s t) ->
     qget ch 1 = Val s -> qget ch 2 = Val t ->
     forall H (h : whandler H) x,
       li_update (unique_validator cf SL) H h q ch st x = li_update SL H h q ch st x) /\
  (distinct_pairs SL st -> forall st' d',
     histc (unique_validator cf SL) (fun s => s = st) (fun _ _ => False)
       (fun st i s t => full_pair cf s t /\ s_oku SL st i s t) (fun _ _ => True) (s_okc SL) st' d' ->
     (exists d, s_hist cf tops lops st' d) /\ distinct_pairs SL st').
Proof.
  intros SL ENV HH. assert (K : exists d, s_hist cf tops lops st d) by eauto. split; [|split].
  - intros q ch j s t FP L Q2 Q3. exact (suv_held cf tops lops ENV st q ch j s t K FP L Q2 Q3).
  - intros q ch s t LS T0 TA NH Q2 Q3 H h x. cbn [unique_validator li_update]. rewrite Q2, Q3. cbn [obind].
    destruct (sd_found_linked cf tops lops ENV st s t K LS T0 TA) as [[E _]|[_ (i & L)]]; [|destruct (NH i L)].
    fold SL in E. rewrite E. reflexivity.
  - intros D st' d' H. exact (suv_hist cf tops lops ENV st st' d' K D H).
Qed.
(** Once a link has an outer source, every update to a pair with that source is refused,
    whether a link holds the pair or not. *)
Lemma L_C71_outer_source_refused cf tops lops st d q ch s t j t' :
  let SL := split_links cf tops lops in
  unit_env cf tops lops -> s_hist cf tops lops st d ->
  is_link SL st j s t' -> no_link SL st s -> s <> 0 -> s <> c_any cf ->
  qget ch 1 = Val s -> qget ch 2 = Val t ->
  fails_with (fun H h x => li_update (unique_validator cf SL) H h q ch st x) st (AlreadyExists s t).
Proof.
  intros SL ENV HH L NS S0 SA Q2 Q3 H h x. cbn [unique_validator li_update]. rewrite Q2, Q3. cbn [obind].
  pose proof (sd_found_outer cf tops lops ENV st s t j t' (ex_intro _ _ HH) NS S0 SA L) as E. fold SL in E.
  rewrite E. reflexivity.
Qed.
Lemma L_C71_unique_resolver_partial cf tops lops st d :
  let SL := split_links cf tops lops in
  unit_env cf tops lops -> s_hist cf tops lops st d ->
  (forall q ch i j s t s0 t0, full_pair cf s t -> distinct_pairs SL st ->
     is_link SL st j s t -> j <> i -> s <> j -> t <> j -> is_link SL st i s0 t0 ->
     qget q 0 = Val i -> qget ch 1 = Val s -> qget ch 2 = Val t ->
     exists st' b, (exists d, s_hist cf tops lops st' d) /\
       calls_twice (fun H h x => li_update (unique_resolver cf SL) H h q ch st x) st' (mkLink i s0 t0) nothing b (mkLink j s t) /\
       no_link SL st' i /\ frame SL st st' i) /\
  (forall q ch i s t, full_pair cf s t -> (forall j, ~ is_link SL st j s t) -> linked SL st i -> s_oku SL st i s t ->
     qget q 0 = Val i -> qget ch 1 = Val s -> qget ch 2 = Val t ->
     exists st' b, (exists d, s_hist cf tops lops st' d) /\
       calls_once (fun H h x => li_update (unique_resolver cf SL) H h q ch st x) st' b (mkLink i s t) /\
       is_link SL st' i s t /\ frame SL st st' i) /\
  (forall q ch i s t, full_pair cf s t -> no_link SL st i ->
     qget q 0 = Val i -> qget ch 1 = Val s -> qget ch 2 = Val t ->
     fails_with (fun H h x => li_update (unique_resolver cf SL) H h q ch st x) st (NotExists i)) /\
  (distinct_pairs SL st -> forall st' d',
     histc (unique_resolver cf SL) (fun s => s = st) (fun _ _ => False)
       (fun st i s t => full_pair cf s t /\ s_oku SL st i s t /\ forall j, is_link SL st j s t -> j <> i -> s <> j /\ t <> j)
       (fun _ _ => True) (s_okc SL) st' d' ->
     (exists d, s_hist cf tops lops st' d) /\ distinct_pairs SL st').
Proof.
  intros SL ENV HH. assert (K : exists d, s_hist cf tops lops st d) by eauto. split; [|split; [|split]].
  - intros. eapply sur_other; eauto.
  - intros. eapply sur_free; eauto.
  - intros. eapply sur_missing; eauto.
  - intros D st' d' H. exact (sur_hist cf tops lops ENV st st' d' K D H).
Qed.
(** Updating any link to the pair it holds already deletes it and fails. *)
Lemma L_C71_unique_resolver_own_pair cf tops lops st d q ch i s t :
  let SL := split_links cf tops lops in
  unit_env cf tops lops -> s_hist cf tops lops st d -> full_pair cf s t -> distinct_pairs SL st -> is_link SL st i s t ->
  qget q 0 = Val i -> qget ch 1 = Val s -> qget ch 2 = Val t ->
  exists st', (exists d, s_hist cf tops lops st' d) /\ no_link SL st' i /\ frame SL st st' i /\
    forall H (h : whandler H) x, li_update (unique_resolver cf SL) H h q ch st x =
      Val (st', fst (h x (mkLink i s t) nothing), Err (NotExists i)).
Proof. intros SL ENV HH. intros. eapply sur_own; eauto. Qed.

(** 1: 1->1, 2: 3->1, 3: 1->2, 4: 5->1, 5: 0->0 *)
Definition ex5u : list cmd := [Cr; Cr; Cr; Cr; Cr; Up 1 1 1; Up 2 3 1; Up 3 1 2; Up 4 5 1].
Lemma ex5u_reach : exists d, s_hist ex_cf ref_tree_ops ref_list_ops (ex_sst ex5u) d /\ srep ex_cf (ex_sst ex5u) (arun a_empty ex5u) /\
  distinct_pairs ex_S (ex_sst ex5u).
Proof.
  destruct (ex_sreach ex5u) as (d & HH & K); [vm_compute; reflexivity..|]. exists d. sp. sp.
  apply ex_sdistinct; vm_compute; reflexivity.
Qed.
Lemma L_C71_nonvacuous : exists st d, s_hist ex_cf ref_tree_ops ref_list_ops st d /\ distinct_pairs ex_S st /\
  is_link ex_S st 2 3 1 /\ is_link ex_S st 4 5 1 /\ full_pair ex_cf 3 1 /\ (forall j, ~ is_link ex_S st j 5 3) /\ s_oku ex_S st 4 5 3 /\
  li_update (unique_validator ex_cf ex_S) unit cont [4] [4; 3; 1] st tt = Val (st, tt, Err (AlreadyExists 3 1)) /\
  (exists st', li_update (unique_validator ex_cf ex_S) unit cont [4] [4; 5; 3] st tt = Val (st', tt, Ok Continue) /\
     is_link ex_S st' 4 5 3) /\
  (exists st', li_update (unique_resolver ex_cf ex_S) (list (link * link)) (fun l b a => (l ++ [(b, a)], Continue)) [4] [4; 3; 1] st []
       = Val (st', [(mkLink 4 5 1, nothing); (mkLink 2 3 1, mkLink 2 3 1)], Ok Continue) /\
     no_link ex_S st' 4 /\ is_link ex_S st' 2 3 1 /\ d_search ex_cf ex_S st' 3 1 = Val (Some 2)).
Proof.
  destruct ex5u_reach as (d & HH & K & DP). exists (ex_sst ex5u), d. sp. sp.
  split; [vm_compute; reflexivity|]. split; [vm_compute; reflexivity|]. split; [unfold full_pair; cbn; lia|].
  split; [snolink K|].
  split; [right; split; [now apply distinct_separable|]; split; [discriminate|]; intros [E|E]; discriminate|].
  split; [vm_compute; reflexivity|]. split.
  - exists (out_st3 (ex_sst ex5u) (li_update (unique_validator ex_cf ex_S) unit cont [4] [4; 5; 3] (ex_sst ex5u) tt)).
    split; svc.
  - exists (out_st3 (ex_sst ex5u) (li_update (unique_resolver ex_cf ex_S) (list (link * link)) (fun l b a => (l ++ [(b, a)], Continue)) [4] [4; 3; 1] (ex_sst ex5u) [])).
    split; [svc|]. split; [svc|]. split; svc.
Qed.
(** A free pair is refused: another link has the same outer source, or there is a hole and no
    link has an outer source.  And where the holder refers to itself, resolving makes it
    impossible to find, after which the same pair is given out again. *)
Lemma L_C71_refuted :
  (exists st d, s_hist ex_cf ref_tree_ops ref_list_ops st d /\ distinct_pairs ex_S st /\ linked ex_S st 2 /\
     (forall j, ~ is_link ex_S st j 50 1) /\
     li_update (unique_validator ex_cf ex_S) unit cont [2] [2; 50; 1] st tt = Val (st, tt, Err (AlreadyExists 50 1))) /\
  (exists st d, s_hist ex_cf ref_tree_ops ref_list_ops st d /\ distinct_pairs ex_S st /\ linked ex_S st 2 /\
     (forall j t, ~ is_link ex_S st j 50 t) /\
     li_update (unique_validator ex_cf ex_S) unit cont [2] [2; 50; 1] st tt = Val (st, tt, Err (AlreadyExists 50 1))) /\
  (exists st d st' st2, s_hist ex_cf ref_tree_ops ref_list_ops st d /\ distinct_pairs ex_S st /\
     is_link ex_S st 2 1 2 /\ is_link ex_S st 3 2 1 /\ is_link ex_S st 4 3 1 /\ d_search ex_cf ex_S st 1 2 = Val (Some 2) /\
     li_update (unique_resolver ex_cf ex_S) unit cont [3] [3; 1; 2] st tt = Val (st', tt, Ok Continue) /\
     is_link ex_S st' 2 1 2 /\ d_search ex_cf ex_S st' 1 2 = Val None /\
     li_update (unique_resolver ex_cf ex_S) unit cont [4] [4; 1; 2] st' tt = Val (st2, tt, Ok Continue) /\
     is_link ex_S st2 2 1 2 /\ is_link ex_S st2 4 1 2).
Proof.
  split; [|split].
  - pose (l := [Cr; Cr; Cr; Up 1 50 3]). destruct (ex_sreach l) as (d & HH & K); [vm_compute; reflexivity..|].
    exists (ex_sst l), d. sp. split; [apply ex_sdistinct; vm_compute; reflexivity|].
    split; [exists 0, 0; vm_compute; reflexivity|]. split; [snolink K|]. vm_compute; reflexivity.
  - pose (l := [Cr; Cr; Cr; Cr; Up 1 2 3; De 3]). destruct (ex_sreach l) as (d & HH & K); [vm_compute; reflexivity..|].
    exists (ex_sst l), d. sp. split; [apply ex_sdistinct; vm_compute; reflexivity|].
    split; [exists 0, 0; vm_compute; reflexivity|]. split; [snolink K|]. vm_compute; reflexivity.
  - destruct (ex_sreach ex4c) as (d & HH & K); [vm_compute; reflexivity..|].
    exists (ex_sst ex4c), d.
    pose (st' := out_st3 (ex_sst ex4c) (li_update (unique_resolver ex_cf ex_S) unit cont [3] [3; 1; 2] (ex_sst ex4c) tt)).
    exists st', (out_st3 st' (li_update (unique_resolver ex_cf ex_S) unit cont [4] [4; 1; 2] st' tt)).
    sp. split; [apply ex_sdistinct; vm_compute; reflexivity|].
    split; [svc|]. split; [svc|]. split; [svc|]. split; [svc|]. split; [svc|]. split; [svc|]. split; [svc|].
    split; [svc|]. split; svc.
Qed.

(** * C72 The deleting decorators over the two-memory store *)
Section Aux2.
  Variables (cf : cfg) (tops : tree_ops) (lops : list_ops).
  Hypothesis ENV : unit_env cf tops lops.
  Notation SL := (split_links cf tops lops).
  Notation hist_st st := (exists d, s_hist cf tops lops st d).

  Lemma sd_usages st i : 2 * c_iend cf <= c_tmax cf -> hist_st st -> linked SL st i ->
    exists L, d_usages cf SL st i = Val (Ok (map l_index L)) /\ forall l, In l L <-> user SL st i l.
  Proof.
    intros DB (d & HH) LI. destruct (L_C54_split_usages cf tops lops st d i ENV HH DB LI) as (L1 & L2 & E & _ & _ & _ & _ & K1 & K2).
    exists (L1 ++ L2). split; auto. intros l. rewrite in_app_iff, K1, K2. unfold user. tauto.
  Qed.
  Lemma sd_used st q i l : 2 * c_iend cf <= c_tmax cf -> hist_st st -> linked SL st i -> user SL st i l ->
    qget q 0 = Val i -> exists L, (forall l, In l L <-> user SL st i l) /\
    forall H A (x : H) (k : out (sst * H * result A)), if_unused cf SL q st x k = Val (st, x, Err (HasUsages L)).
  Proof.
    intros DB K LI U Q. destruct (sd_usages st i DB K LI) as (L & E & IN). exists L. split; auto.
    intros H A x k. unfold if_unused. rewrite (ok_ipart _ (f_cf _ _ _ ENV)), Q. cbn [obind]. rewrite E. cbn [obind].
    pose proof (get_all_ok SL st L) as GA. destruct L as [|l0 L]; [apply IN in U; destruct U|].
    cbn [map] in GA |- *. rewrite GA; [reflexivity|]. intros l1 Hl. apply IN in Hl. apply Hl.
  Qed.
  Lemma sd_unused st q i H A (x : H) (k : out (sst * H * result A)) : 2 * c_iend cf <= c_tmax cf -> hist_st st -> linked SL st i ->
    (forall l, ~ user SL st i l) -> qget q 0 = Val i -> if_unused cf SL q st x k = k.
  Proof.
    intros DB K LI U Q. destruct (sd_usages st i DB K LI) as (L & E & IN).
    unfold if_unused. rewrite (ok_ipart _ (f_cf _ _ _ ENV)), Q. cbn [obind]. rewrite E. cbn [obind].
    destruct L as [|l0 L]; [reflexivity|]. exfalso. apply (U l0). apply IN. now left.
  Qed.
  Lemma sd_unused_none st q i H A (x : H) (k : out (sst * H * result A)) : hist_st st -> no_link SL st i ->
    qget q 0 = Val i -> if_unused cf SL q st x k = Val (st, x, Err (NotExists i)).
  Proof.
    intros (d & HH) LI Q. unfold if_unused. rewrite (ok_ipart _ (f_cf _ _ _ ENV)), Q. cbn [obind].
    destruct (L_C54_split_usages_missing cf tops lops st d i ENV HH LI) as (E & _). rewrite E. reflexivity.
  Qed.
  (** Emptying a link keeps the others separable. *)
  Lemma sep_empty st st1 i x : is_link SL st1 i 0 0 -> frame SL st st1 i -> x <> i -> separable SL st x -> separable SL st1 x.
  Proof.
    intros L F XI [S|S]; [left; now apply (link_frame _ _ _ _ _ _ _ F XI)|].
    destruct (li_get SL st1 x) as [[[y s t]|]| | |] eqn:E; try (right; intros j s' t' E'; unfold is_link in E'; congruence).
    destruct (N.eq_dec y x) as [->|YX].
    2:{ right; intros j s' t' E'; unfold is_link in E'; congruence. }
    destruct (N.eq_dec s 0) as [->|S0]; [destruct (N.eq_dec t 0) as [->|T0]; [left; exact E|]|];
      right; intros j s' t' A B; unfold is_link in A; rewrite E in A; injection A as <- <-;
      (destruct (N.eq_dec j i) as [->|JI]; [exfalso; unfold is_link in L, B; rewrite L in B; injection B; congruence|]);
      apply (S j _ _ (proj1 (link_frame _ _ _ _ _ _ _ F XI) E)); now apply (link_frame _ _ _ _ _ _ _ F JI).
  Qed.
End Aux2.

Lemma L_C72_usages_validator cf tops lops st d q i :
  let SL := split_links cf tops lops in
  unit_env cf tops lops -> 2 * c_iend cf <= c_tmax cf -> s_hist cf tops lops st d -> qget q 0 = Val i ->
  (forall l, linked SL st i -> user SL st i l ->
     exists L, (forall k, In k L <-> user SL st i k) /\
       fails_with (fun H h x => li_delete (usages_validator cf SL) H h q st x) st (HasUsages L) /\
       forall ch, fails_with (fun H h x => li_update (usages_validator cf SL) H h q ch st x) st (HasUsages L)) /\
  (forall s t, is_link SL st i s t -> separable SL st i -> (forall l, ~ user SL st i l) ->
     exists st', (exists d, s_hist cf tops lops st' d) /\
       calls_once (fun H h x => li_delete (usages_validator cf SL) H h q st x) st' (mkLink i s t) nothing /\
       no_link SL st' i /\ frame SL st st' i /\ unreferred SL st' i) /\
  (no_link SL st i -> fails_with (fun H h x => li_delete (usages_validator cf SL) H h q st x) st (NotExists i)).
Proof.
  intros SL ENV DB HH Q. assert (K : exists d, s_hist cf tops lops st d) by eauto. split; [|split].
  - intros l LI U. destruct (sd_used cf tops lops ENV st q i l DB K LI U Q) as (L & IN & E). exists L. split; auto.
    split; [|intros ch]; intros H h x; apply E.
  - intros s t LI SEP NU.
    assert (OD : s_okd SL st i).
    { right. split; auto. intros x s' t' L XI E. exfalso. apply (NU (mkLink x s' t')). split; auto. }
    destruct (sd_delete cf tops lops ENV st q i s t K LI OD Q) as (st' & K' & C & N' & F).
    exists st'. split; auto. split; [|split; auto; split; auto].
    + intros H h x. cbn [usages_validator li_delete]. rewrite (sd_unused cf tops lops ENV) with (i := i); auto.
      exists s, t; auto.
    + intros j s' t' L. assert (JI : j <> i) by (intros ->; exact (link_no _ _ _ _ _ L N')).
      apply (link_frame _ _ _ _ _ _ _ F JI) in L.
      split; intros ->.
      * apply (NU (mkLink j i t')). split; [exact L|]. cbn. auto.
      * apply (NU (mkLink j s' i)). split; [exact L|]. cbn. auto.
  - intros N H h x. cbn [usages_validator li_delete]. eapply sd_unused_none; eauto.
Qed.
(** Emptying a link first and deleting it then removes exactly that link. *)
Lemma L_C72_non_null_deletion cf tops lops st d q i :
  let SL := split_links cf tops lops in
  unit_env cf tops lops -> s_hist cf tops lops st d -> qget q 0 = Val i ->
  (forall s t, is_link SL st i s t -> s_okd SL st i -> exists st', (exists d, s_hist cf tops lops st' d) /\
     calls_twice (fun H h x => li_delete (non_null_deletion_resolver cf SL) H h q st x) st'
       (mkLink i s t) (mkLink i 0 0) (mkLink i 0 0) nothing /\
     no_link SL st' i /\ frame SL st st' i) /\
  (no_link SL st i -> fails_with (fun H h x => li_delete (non_null_deletion_resolver cf SL) H h q st x) st (NotExists i)).
Proof.
  intros SL ENV HH Q. pose proof (ok_null _ (f_cf _ _ _ ENV)) as NU. assert (K : exists d, s_hist cf tops lops st d) by eauto.
  split.
  - intros s t LI OD. assert (LK : linked SL st i) by (exists s, t; exact LI).
    destruct (sd_range cf tops lops ENV st i K LK) as [I0 _].
    destruct OD as [OD|[SEP OD]]; [exfalso; exact (link_no _ _ _ _ _ LI OD)|].
    assert (OU : s_oku SL st i 0 0). { right. split; auto. split; auto. intros [E|E]; congruence. }
    destruct (L_C25_update cf tops lops st d q [i; 0; 0] i s t 0 0 ENV HH LI OU Q eq_refl eq_refl) as (st1 & HH1 & C1 & L1 & F1 & _).
    assert (OD1 : s_okd SL st1 i).
    { right. split; [now left|]. intros x s' t' L XI E. apply (sep_empty cf tops lops st st1 i x L1 F1 XI).
      apply (OD x s' t'); auto. now apply (link_frame _ _ _ _ _ _ _ F1 XI). }
    destruct (sd_delete cf tops lops ENV st1 q i 0 0 (ex_intro _ _ HH1) L1 OD1 Q) as (st2 & K2 & C2 & N2 & F2).
    exists st2. split; auto. split; [|split; auto].
    + intros H h x. cbn [non_null_deletion_resolver li_delete]. rewrite Q. cbn [obind]. rewrite NU.
      unfold then_ok, d_update_by_with.
      rewrite (wadapt_once (fun H h x => li_update SL H h q [i; 0; 0] st x) _ _ _ _ _ _ _ C1). cbn [obind]. rewrite uw_fst. apply C2.
    + intros j J. now rewrite F2, F1.
  - intros N H h x. cbn [non_null_deletion_resolver li_delete]. rewrite Q. cbn [obind]. rewrite NU.
    pose proof (sd_update_none cf tops lops ENV st q [i; 0; 0] i 0 0 K N Q eq_refl eq_refl) as C.
    unfold then_ok, d_update_by_with. now rewrite (wadapt_fail _ _ _ _ _ _ _ C).
Qed.
(** The users are deleted, then the link. *)
Lemma L_C72_cascade_usages_partial cf tops lops st d q i s t :
  let SL := split_links cf tops lops in
  unit_env cf tops lops -> s_hist cf tops lops st d -> qget q 0 = Val i -> is_link SL st i s t ->
  separable SL st i -> (forall l, user SL st i l -> s_okd SL st (l_index l)) ->
  (forall x, x <> i -> ~ is_link SL st x i i) ->
  exists st' L, (exists d, s_hist cf tops lops st' d) /\ (forall l, In l L <-> user SL st i l) /\
    removed SL st st' (mkLink i s t :: L) /\
    (forall H (h : whandler H) x, exists x' f,
       li_delete (cascade_usages_resolver cf SL) H h q st x = Val (st', x', Ok f)) /\
    unreferred SL st' i.
Proof.
  intros SL ENV HH Q LI D0 D NB. assert (LK : linked SL st i) by (exists s, t; auto).
  destruct (L_C54_split_delete_usages_partial cf tops lops st d i ENV HH D LK NB) as (st1 & L & K1 & ND & IN & RM & E & _).
  fold SL in IN, RM.
  assert (NI : ~ In i (map l_index L)).
  { intros M. apply in_map_iff in M as (l & EI & M). apply IN in M. destruct M as (_ & M & _). congruence. }
  assert (L1 : is_link SL st1 i s t).
  { unfold is_link. rewrite RM. destruct (in_dec N.eq_dec i (map l_index L)); [contradiction|exact LI]. }
  assert (LS : forall j s' t', is_link SL st1 j s' t' -> is_link SL st j s' t' /\ ~ In j (map l_index L)).
  { intros j s' t' A. unfold is_link in A. rewrite RM in A. destruct (in_dec N.eq_dec j (map l_index L)); [discriminate|auto]. }
  assert (D1 : s_okd SL st1 i).
  { right. split.
    - destruct D0 as [D0|D0]; [left|right; intros j s2 t2 A B; apply LS in A, B; exact (D0 j s2 t2 (proj1 A) (proj1 B))].
      unfold is_link. rewrite RM. destruct (in_dec N.eq_dec i (map l_index L)); [contradiction|exact D0].
    - intros x s' t' A XI EX. apply LS in A as [A NX]. exfalso. apply NX. apply in_map_iff. exists (mkLink x s' t').
      split; auto. apply IN. split; auto. }
  destruct (sd_delete cf tops lops ENV st1 q i s t K1 L1 D1 Q) as (st2 & K2 & C & N2 & F).
  assert (RM2 : removed SL st st2 (mkLink i s t :: L)).
  { intros j. cbn [map l_index]. destruct (N.eq_dec j i) as [->|J].
    - destruct (in_dec N.eq_dec i (i :: map l_index L)) as [|X]; [exact N2|exfalso; apply X; now left].
    - rewrite F, RM by auto.
      destruct (in_dec N.eq_dec j (map l_index L)) as [A|A], (in_dec N.eq_dec j (i :: map l_index L)) as [B|B]; auto.
      + exfalso. apply B. now right.
      + destruct B as [B|B]; [congruence|contradiction]. }
  exists st2, L. split; auto. split; auto. split; auto. split.
  - intros H h x. cbn [cascade_usages_resolver li_delete]. rewrite Q. cbn [obind]. unfold then_ok. fold SL in E. rewrite E. cbn [obind].
    rewrite C. eauto.
  - intros j s' t' A. assert (A' := A). unfold is_link in A'. rewrite RM2 in A'. cbn [map l_index] in A'.
    destruct (in_dec N.eq_dec j (i :: map l_index L)) as [|B]; [discriminate|].
    assert (NU : ~ user SL st i (mkLink j s' t')).
    { intros U. apply B. right. apply IN in U. apply in_map_iff. exists (mkLink j s' t'). auto. }
    assert (JI : j <> i) by (intros ->; apply B; now left).
    split; intros ->; apply NU; (split; [exact A'|cbn; auto]).
Qed.
(** Whenever another link has i at both ends, the delete fails. *)
Lemma L_C72_cascade_usages_double cf tops lops st d q i x :
  let SL := split_links cf tops lops in
  unit_env cf tops lops -> s_hist cf tops lops st d -> qget q 0 = Val i -> linked SL st i ->
  (forall l, user SL st i l -> s_okd SL st (l_index l)) -> x <> i -> is_link SL st x i i ->
  exists st', li_delete (cascade_usages_resolver cf SL) unit cont q st tt = Val (st', tt, Err (NotExists x)).
Proof.
  intros SL ENV HH Q LI D XI LX.
  destruct (L_C54_split_delete_usages_double cf tops lops st d i x ENV HH D LI XI LX) as (st' & E).
  exists st'. fold SL in E. unfold d_delete_usages in E. cbn [cascade_usages_resolver li_delete]. rewrite Q. cbn [obind].
  unfold then_ok. change (@uw_of unit cont) with (fun (x : unit) (_ _ : link) => (x, @None unit)).
  destruct (d_delete_usages_with cf SL (fun (x : unit) (_ _ : link) => (x, None)) i st tt) as [[[st2 []] r]| | |]; try discriminate.
  cbn [obind] in E |- *. injection E as -> ->. reflexivity.
Qed.
(** Updating i to a pair held by another link j redirects the usages of i to j and deletes i. *)
Lemma L_C72_cascade_unique_partial cf tops lops st d q ch i s t :
  let SL := split_links cf tops lops in
  unit_env cf tops lops -> s_hist cf tops lops st d -> full_pair cf s t ->
  qget q 0 = Val i -> qget ch 1 = Val s -> qget ch 2 = Val t ->
  (forall j, distinct_pairs SL st -> linked SL st i -> is_link SL st j s t -> j <> i -> s <> i -> t <> i -> s <> j -> t <> j ->
     (forall x, x <> i -> ~ is_link SL st x i i) -> plain_users SL st i j ->
     (forall k k' s t, moved SL st i j k s t -> moved SL st i j k' s t -> (s, t) <> (0, 0) -> k = k') ->
     exists st', (exists d, s_hist cf tops lops st' d) /\ no_link SL st' i /\
       (forall k s' t', k <> i -> (is_link SL st' k s' t' <-> moved SL st i j k s' t')) /\
       forall H (h : whandler H) x, exists x' f,
         li_update (cascade_unique_resolver cf SL) H h q ch st x = Val (st', x', Ok f)) /\
  ((forall j, ~ is_link SL st j s t) -> linked SL st i -> s_oku SL st i s t ->
     exists st' b, (exists d, s_hist cf tops lops st' d) /\
       calls_once (fun H h x => li_update (cascade_unique_resolver cf SL) H h q ch st x) st' b (mkLink i s t) /\
       is_link SL st' i s t /\ frame SL st st' i) /\
  (no_link SL st i -> fails_with (fun H h x => li_update (cascade_unique_resolver cf SL) H h q ch st x) st (NotExists i)).
Proof.
  intros SL ENV HH FP Q1 Q2 Q3. assert (K : exists d, s_hist cf tops lops st d) by eauto. pose proof FP as (S0 & T0 & SA & TA).
  split; [|split].
  - intros j D LI LJ JI SI TI SJ TJ NB PU FD.
    assert (J0 : j <> 0) by (apply (sd_range cf tops lops ENV st j K); exists s, t; exact LJ).
    destruct (sh_hist cf tops lops ENV st d HH) as (a & KA & _).
    destruct (sh_rebase cf tops lops ENV st a i j KA D (fun E => JI (eq_sym E)) J0 LI NB PU FD) as (st1 & a1 & K1 & M1 & _ & E1 & _).
    assert (H1 : exists d, s_hist cf tops lops st1 d) by apply K1. fold SL in M1, E1.
    destruct LI as (s0 & t0 & LI).
    assert (LI1 : is_link SL st1 i s0 t0).
    { apply M1. exists s0, t0. rewrite N.eqb_refl. auto. }
    assert (D1 : distinct_pairs SL st1).
    { intros k k' s' t' A B. apply M1 in A, B. now apply FD. }
    destruct (sd_delete_with cf tops lops ENV st1 i s0 t0 H1 LI1 (s_okd_distinct _ _ _ _ D1)) as (st2 & K2 & N2 & F2 & E2).
    assert (D2 : distinct_pairs SL st2) by (eapply dist_remove; eauto).
    assert (LJ2 : is_link SL st2 j s t).
    { apply (link_frame _ _ _ _ _ _ _ F2 JI). apply M1. exists s, t. split; auto.
      destruct (N.eqb_spec j i); [contradiction|]. unfold redirect.
      destruct (N.eqb_spec s i); [contradiction|]. destruct (N.eqb_spec t i); [contradiction|]. auto. }
    destruct (sd_update_with cf tops lops ENV st2 j s t K2 (ex_intro _ _ (ex_intro _ _ LJ2)) (rewrite_ok cf tops lops _ _ _ _ D2 SJ TJ T0)) as (st3 & b & K3 & L3 & F3 & E3).
    fold SL in L3, F3, F2, N2, E2, E3.
    exists st3. split; auto. split; [unfold no_link; rewrite F3 by auto; exact N2|]. split.
    + intros k s' t' KI. rewrite <- M1, <- (link_frame _ _ _ _ _ _ _ F2 KI). destruct (N.eq_dec k j) as [->|KJ].
      * split; intros A; [destruct (link_fun _ _ _ _ _ _ _ L3 A) as [<- <-]; exact LJ2
                         |destruct (link_fun _ _ _ _ _ _ _ LJ2 A) as [<- <-]; exact L3].
      * now apply link_frame with (i := j).
    + intros H h x. cbn [cascade_unique_resolver li_update]. rewrite Q1, Q2, Q3. cbn [obind].
      destruct (sd_search cf tops lops ENV st s t K FP) as [(_ & E)|(k & E & LK)]; [destruct (E j LJ)|].
      assert (k = j) as -> by (apply (D k j s t LK LJ); congruence). fold SL in E. rewrite E. cbn [obind]. unfold then_ok.
      destruct (E1 H unit (uw_of h) x) as (x1 & ->). cbn [obind].
      destruct (E2 H h x1) as (o & ->). cbn [obind]. rewrite E3. eauto.
  - intros NH L OU. destruct (sd_update_with cf tops lops ENV st i s t K L OU) as (st' & b & K' & L' & F & C).
    exists st', b. split; auto. split; auto. intros H h x. cbn [cascade_unique_resolver li_update]. rewrite Q1, Q2, Q3. cbn [obind].
    destruct (sd_search cf tops lops ENV st s t K FP) as [(E & _)|(k & _ & E)]; [|destruct (NH k E)].
    fold SL in E. rewrite E. cbn [obind]. apply C.
  - intros N H h x. cbn [cascade_unique_resolver li_update]. rewrite Q1, Q2, Q3. cbn [obind].
    destruct (sd_search cf tops lops ENV st s t K FP) as [(E & _)|(k & E & _)]; fold SL in E; rewrite E; cbn [obind].
    + now apply (sd_update_with_none cf tops lops ENV).
    + unfold then_ok, d_rebase_with, d_try_get_link. unfold no_link in N. rewrite N. reflexivity.
Qed.

(** 1: 1->1, 2: 3->1, 3: 1->2, 4: 50->1, 5: 4->3 *)
Definition ex5v : list cmd := [Cr; Cr; Cr; Cr; Cr; Up 1 1 1; Up 2 3 1; Up 3 1 2; Up 4 50 1; Up 5 4 3].
Lemma ex5v_reach : exists d, s_hist ex_cf ref_tree_ops ref_list_ops (ex_sst ex5v) d /\ srep ex_cf (ex_sst ex5v) (arun a_empty ex5v) /\
  distinct_pairs ex_S (ex_sst ex5v).
Proof.
  destruct (ex_sreach ex5v) as (d & HH & K); [vm_compute; reflexivity..|]. exists d. sp. sp.
  apply ex_sdistinct; vm_compute; reflexivity.
Qed.
Lemma ex5v_top x s t : is_link ex_S (ex_sst ex5v) x s t -> 1 <= x <= 5.
Proof.
  destruct (ex_sreach ex5v) as (d & HH & K); [vm_compute; reflexivity..|].
  intros L. assert (LK : linked ex_S (ex_sst ex5v) x) by (eexists; eauto).
  apply (ob_top ex_cf _ ex_S _ (f_ok _ _ _ ex_env) _ _ K) in LK. vm_compute (a_top _) in LK. exact LK.
Qed.
Notation record_calls := (fun (l : list (link * link)) b a => (l ++ [(b, a)], Continue)).
Lemma L_C72_nonvacuous : 2 * c_iend ex_cf <= c_tmax ex_cf /\ exists st d, s_hist ex_cf ref_tree_ops ref_list_ops st d /\ distinct_pairs ex_S st /\
  is_link ex_S st 4 50 1 /\ is_link ex_S st 5 4 3 /\ is_link ex_S st 2 3 1 /\
  (forall x, x <> 4 -> ~ is_link ex_S st x 4 4) /\ plain_users ex_S st 4 2 /\
  (forall k k' s t, moved ex_S st 4 2 k s t -> moved ex_S st 4 2 k' s t -> (s, t) <> (0, 0) -> k = k') /\
  li_delete (usages_validator ex_cf ex_S) unit cont [4] st tt = Val (st, tt, Err (HasUsages [mkLink 5 4 3])) /\
  (exists st', li_delete (usages_validator ex_cf ex_S) unit cont [5] st tt = Val (st', tt, Ok Continue) /\
     no_link ex_S st' 5 /\ is_link ex_S st' 4 50 1) /\
  (exists st', li_delete (non_null_deletion_resolver ex_cf ex_S) (list (link * link)) record_calls [4] st []
       = Val (st', [(mkLink 4 50 1, mkLink 4 0 0); (mkLink 4 0 0, nothing)], Ok Continue) /\
     no_link ex_S st' 4 /\ is_link ex_S st' 5 4 3) /\
  (exists st', li_delete (cascade_usages_resolver ex_cf ex_S) unit cont [4] st tt = Val (st', tt, Ok Continue) /\
     no_link ex_S st' 4 /\ no_link ex_S st' 5 /\ is_link ex_S st' 2 3 1) /\
  (exists st', li_update (cascade_unique_resolver ex_cf ex_S) unit cont [4] [4; 3; 1] st tt = Val (st', tt, Ok Continue) /\
     no_link ex_S st' 4 /\ is_link ex_S st' 5 2 3 /\ is_link ex_S st' 2 3 1 /\ d_search ex_cf ex_S st' 2 3 = Val (Some 5)).
Proof.
  split; [cbn; lia|]. destruct ex5v_reach as (d & HH & K & DP). exists (ex_sst ex5v), d. sp. sp.
  split; [svc|]. split; [svc|]. split; [svc|]. split; [snolink K|]. split; [|split; [|split; [|split; [|split; [|split]]]]].
  - intros [x s t] (L & NX & SE). cbn [l_index l_source l_target] in *. pose proof (ex5v_top _ _ _ L) as T.
    each_index T; try contradiction; vm_compute in L; injection L as <- <-; lia.
  - intros i j s t (s1 & t1 & L1 & E1) (s2 & t2 & L2 & E2) NZ.
    pose proof (ex5v_top _ _ _ L1) as T1. pose proof (ex5v_top _ _ _ L2) as T2.
    each_index T1; each_index T2; try reflexivity; exfalso;
      vm_compute in L1, L2; injection L1 as <- <-; injection L2 as <- <-; vm_compute in E1, E2;
      destruct E1 as [-> ->], E2 as [E2 E3]; try discriminate; apply NZ; reflexivity.
  - vm_compute; reflexivity.
  - exists (out_st3 (ex_sst ex5v) (li_delete (usages_validator ex_cf ex_S) unit cont [5] (ex_sst ex5v) tt)).
    split; [svc|]. split; svc.
  - exists (out_st3 (ex_sst ex5v) (li_delete (non_null_deletion_resolver ex_cf ex_S) (list (link * link)) record_calls [4] (ex_sst ex5v) [])).
    split; [svc|]. split; svc.
  - exists (out_st3 (ex_sst ex5v) (li_delete (cascade_usages_resolver ex_cf ex_S) unit cont [4] (ex_sst ex5v) tt)).
    split; [svc|]. split; [svc|]. split; svc.
  - exists (out_st3 (ex_sst ex5v) (li_update (cascade_unique_resolver ex_cf ex_S) unit cont [4] [4; 3; 1] (ex_sst ex5v) tt)).
    split; [svc|]. split; [svc|]. split; [svc|]. split; svc.
Qed.
(** The users of a deleted user keep their reference and are not found once its index is given
    out again; a link with i at both ends makes the cascade fail; and a redirected link that
    refers to itself cannot be found afterwards. *)
Lemma L_C72_refuted :
  (exists st d st' st2, s_hist ex_cf ref_tree_ops ref_list_ops st d /\ distinct_pairs ex_S st /\
     (forall x, x <> 2 -> ~ is_link ex_S st x 2 2) /\ is_link ex_S st 3 2 1 /\ is_link ex_S st 4 3 1 /\
     li_delete (cascade_usages_resolver ex_cf ex_S) unit cont [2] st tt = Val (st', tt, Ok Continue) /\
     no_link ex_S st' 3 /\ is_link ex_S st' 4 3 1 /\ d_search ex_cf ex_S st' 3 1 = Val (Some 4) /\
     d_create ex_S st' = Val (st2, Ok 2) /\ 
     exists st3, d_create ex_S st2 = Val (st3, Ok 3) /\ is_link ex_S st3 4 3 1 /\ d_search ex_cf ex_S st3 3 1 = Val None) /\
  (exists st d st', s_hist ex_cf ref_tree_ops ref_list_ops st d /\ distinct_pairs ex_S st /\ linked ex_S st 1 /\
     li_delete (cascade_usages_resolver ex_cf ex_S) unit cont [1] st tt = Val (st', tt, Err (NotExists 2)) /\
     linked ex_S st' 1) /\
  (exists st d st', s_hist ex_cf ref_tree_ops ref_list_ops st d /\ distinct_pairs ex_S st /\
     is_link ex_S st 4 3 4 /\ d_search ex_cf ex_S st 3 4 = Val (Some 4) /\
     li_update (cascade_unique_resolver ex_cf ex_S) unit cont [3] [3; 1; 2] st tt = Val (st', tt, Ok Continue) /\
     is_link ex_S st' 4 2 4 /\ d_search ex_cf ex_S st' 2 4 = Val None).
Proof.
  split; [|split].
  - destruct (ex_sreach ex4c) as (d & HH & K); [vm_compute; reflexivity..|].
    pose (st' := out_st3 (ex_sst ex4c) (li_delete (cascade_usages_resolver ex_cf ex_S) unit cont [2] (ex_sst ex4c) tt)).
    pose (st2 := match d_create ex_S st' with Val (s, _) => s | _ => ex_sstart end).
    exists (ex_sst ex4c), d, st', st2. sp. split; [apply ex_sdistinct; vm_compute; reflexivity|]. split; [snolink K|].
    split; [svc|]. split; [svc|]. split; [svc|]. split; [svc|]. split; [svc|]. split; [svc|]. split; [vm_compute; reflexivity|].
    exists (match d_create ex_S st2 with Val (s, _) => s | _ => ex_sstart end). split; [vm_compute; reflexivity|]. split; svc.
  - pose (l := [Cr; Cr; Up 2 1 1]). destruct (ex_sreach l) as (d & HH & _); [vm_compute; reflexivity..|].
    exists (ex_sst l), d, (out_st3 (ex_sst l) (li_delete (cascade_usages_resolver ex_cf ex_S) unit cont [1] (ex_sst l) tt)).
    sp. split; [apply ex_sdistinct; vm_compute; reflexivity|]. split; [exists 0, 0; svc|]. split; [svc|]. exists 0, 0; svc.
  - destruct (ex_sreach ex4d) as (d & HH & K); [vm_compute; reflexivity..|].
    exists (ex_sst ex4d), d, (out_st3 (ex_sst ex4d) (li_update (cascade_unique_resolver ex_cf ex_S) unit cont [3] [3; 1; 2] (ex_sst ex4d) tt)).
    sp. split; [apply ex_sdistinct; vm_compute; reflexivity|]. split; [svc|]. split; [svc|]. split; [svc|]. split; svc.
Qed.
