(** Stores that obey the store contract, seen through their public operations only.

    [good_store cf I G]: the states in [G] follow the abstract store of Spec.v, and the only
    obligation on the client is not to update or delete links while duplicate pairs exist. *)
From Coq Require Import NArith List Bool Lia Permutation Sorted.
From Verif Require Import Base Spec Iface Doublets DoubletsOK Obs Hist Claims Decorators UnitModel UnitInv UnitOps UnitLinks UnitHist.
Import ListNotations.
Open Scope N_scope.

Definition good_store (cf : cfg) {S} (I : LinksI S) (G : S -> Prop) : Prop :=
  cfg_ok cf /\ 2 * c_iend cf <= c_tmax cf /\
  exists sp R, links_ok cf sp I R /\
    (forall a i s t, detachable a i -> sp_update sp a i s t) /\
    (forall a i, detachable a i -> sp_delete sp a i) /\
    (forall st a, R st a -> sp_create sp a) /\
    (forall st a q, R st a -> (length q <= 3)%nat -> (length q = 2%nat -> 2 * c_iend cf <= c_tmax cf) -> sp_query sp a q) /\
    (forall st, G st <-> exists a, R st a).

(** The single-memory store with room in its address type is one. *)
Lemma unit_good cf tops lops : unit_env cf tops lops -> cfg_room cf ->
  good_store cf (unit_links cf tops lops) (fun st => exists d, u_hist cf tops lops st d).
Proof.
  intros ENV RM. split; [exact (e_cf _ _ _ ENV)|]. split; [exact (room_dbl _ RM)|].
  exists (unit_spec cf), (uh cf tops lops). split; [now apply uh_links_ok|]. split; [auto|]. split; [auto|].
  split. { intros st a [K _]. eapply e_spc; eauto. }
  split. { intros st a q [K _]. eapply e_spq; eauto. }
  intros st. split.
  - intros (d & HH). destruct (uh_hist _ _ _ ENV _ _ HH) as (a & K & _). eauto.
  - intros (a & _ & K). exact K.
Qed.

(** The call succeeds, calls the handler twice, and passes on the second verdict. *)
Definition calls_twice {S} (f : wcall S) (st' : S) (b1 a1 b2 a2 : link) : Prop :=
  forall H (h : whandler H) x,
    f H h x = Val (st', fst (h (fst (h x b1 a1)) b2 a2), Ok (snd (h (fst (h x b1 a1)) b2 a2))).

Lemma uw_fst {H} (h : whandler H) x b a : fst (uw_of h x b a) = fst (h x b a).
Proof. unfold uw_of. destruct (h x b a). reflexivity. Qed.
Lemma uw_flow {H} (h : whandler H) x b a : flow_of (snd (uw_of h x b a)) = snd (h x b a).
Proof. unfold uw_of. destruct (h x b a) as [x' []]; reflexivity. Qed.

Section Good.
  Variable cf : cfg.
  Context {S : Type}.
  Variable I : LinksI S.
  Variable G : S -> Prop.
  Hypothesis GS : good_store cf I G.
  Notation any := (c_any cf).

  Ltac gopen := destruct GS as (CF & DB & sp & R & OK & SPU & SPD & SPC & SPQ & GR).
  Ltac gst GR st a HR := match goal with K : G st |- _ => apply GR in K as (a & HR) end.

  Lemma gs_dec st i : G st -> linked I st i \/ no_link I st i.
  Proof.
    intros K. gopen. gst GR st a HR.
    destruct (a_map a i) as [[s t]|] eqn:E.
    - left. apply (ob_linked cf _ _ _ OK _ _ _ HR). congruence.
    - right. now apply (ob_none cf _ _ _ OK _ _ _ HR).
  Qed.
  Lemma gs_range st i : G st -> linked I st i -> i <> 0 /\ i <> any.
  Proof.
    intros K L. gopen. gst GR st a HR. apply (ob_linked cf _ _ _ OK _ _ _ HR) in L.
    destruct (exists_range cf sp I R OK _ _ _ CF HR L) as (A & B & _). auto.
  Qed.

  Lemma gs_update st q ch i s t : G st -> linked I st i -> separable I st i ->
    qget q 0 = Val i -> qget ch 1 = Val s -> qget ch 2 = Val t ->
    exists st' b, G st' /\ calls_once (fun H h x => li_update I H h q ch st x) st' b (mkLink i s t) /\
      is_link I st' i s t /\ frame I st st' i.
  Proof.
    intros K L SEP Q1 Q2 Q3. gopen. gst GR st a HR.
    destruct (g_update cf sp I R OK SPU st a q ch i s t HR L SEP Q1 Q2 Q3) as (st' & b & R' & C).
    exists st', b. split; [apply GR; eauto|exact C].
  Qed.
  Lemma gs_update_none st q ch i s t : G st -> no_link I st i ->
    qget q 0 = Val i -> qget ch 1 = Val s -> qget ch 2 = Val t ->
    fails_with (fun H h x => li_update I H h q ch st x) st (NotExists i).
  Proof. intros K L Q1 Q2 Q3. gopen. gst GR st a HR. eapply (g_update_none cf sp I R OK); eauto. Qed.
  Lemma gs_delete st q i s t : G st -> is_link I st i s t -> separable I st i -> qget q 0 = Val i ->
    exists st', G st' /\ calls_once (fun H h x => li_delete I H h q st x) st' (mkLink i s t) nothing /\
      no_link I st' i /\ frame I st st' i.
  Proof.
    intros K L SEP Q. gopen. gst GR st a HR.
    destruct (g_delete cf sp I R OK SPD SPQ st a q i s t HR L SEP Q) as (st' & R' & C1 & C2 & C3 & _).
    exists st'. split; [apply GR; eauto|auto].
  Qed.
  Lemma gs_delete_none st q i : G st -> no_link I st i -> qget q 0 = Val i ->
    fails_with (fun H h x => li_delete I H h q st x) st (NotExists i).
  Proof. intros K L Q. gopen. gst GR st a HR. eapply (g_delete_none cf sp I R OK); eauto. Qed.
  Lemma gs_create st q : G st ->
    (exists st' e, G st' /\ same_links I st st' /\ fails_with (fun H h x => li_create I H h q st x) st' e) \/
    (exists st' i, G st' /\ adds cf I st st' i 0 0 /\
       calls_once (fun H h x => li_create I H h q st x) st' nothing (mkLink i 0 0)).
  Proof.
    intros K. gopen. gst GR st a HR.
    destruct (lo_create _ _ _ _ OK _ _ q HR (SPC _ _ HR)) as [[F C]|[(F & _ & st' & R' & C)|(F & st' & R' & C)]].
    - left. exists st, (LimitReached (c_iend cf)). split; [apply GR; eauto|]. split; [intros j; reflexivity|exact C].
    - left. exists st', AllocFailed. split; [apply GR; eauto|]. split; [|exact C].
      intros j. rewrite (lo_get _ _ _ _ OK _ _ _ R'), (lo_get _ _ _ _ OK _ _ _ HR). reflexivity.
    - right. exists st', (a_next a). split; [apply GR; eauto|]. split; [|exact C].
      destruct (ob_creates cf sp I R OK SPQ _ _ _ HR F R') as (A1 & A2 & A3 & A4 & _). unfold adds. auto.
  Qed.

  Lemma gs_search st s t : G st -> s <> 0 -> s <> any -> t <> any ->
    (d_search cf I st s t = Val None /\ d_found I st [any; s; t] = Val false /\ forall i, ~ is_link I st i s t) \/
    (exists i, d_search cf I st s t = Val (Some i) /\ d_found I st [any; s; t] = Val true /\ is_link I st i s t).
  Proof.
    intros K S0 SA TA. gopen. gst GR st a HR.
    assert (Q : sp_query sp a [any; s; t]) by (eapply SPQ; eauto; discriminate).
    destruct (visits_ex cf sp I R OK _ _ _ HR Q) as (L & V & VO).
    unfold d_search. rewrite (d_find_ok _ _ _ _ V), (d_found_ok _ _ _ _ V). cbn [obind].
    destruct (search_visits cf sp I R OK _ _ _ _ _ HR SA TA S0 VO) as [[-> M]|(i & -> & M)]; [left|right].
    - split; auto. split; auto. intros i L. apply (M i). now apply (ob_link cf _ _ _ OK _ _ _ _ _ HR).
    - exists i. split; auto. split; auto. now apply (ob_link cf _ _ _ OK _ _ _ _ _ HR).
  Qed.

  Lemma gs_usages st i : G st -> linked I st i ->
    exists L, d_usages cf I st i = Val (Ok (map l_index L)) /\ forall l, In l L <-> user I st i l.
  Proof.
    intros K LI. gopen. gst GR st a HR.
    destruct (g_usages cf CF sp I R OK SPQ st a i HR DB LI) as (L1 & L2 & E & _ & _ & _ & _ & K1 & K2).
    exists (L1 ++ L2). split; auto. intros l. rewrite in_app_iff, K1, K2. unfold user. tauto.
  Qed.
  Lemma gs_usages_none st i : G st -> no_link I st i -> d_usages cf I st i = Val (Err (NotExists i)).
  Proof. intros K L. gopen. gst GR st a HR. now destruct (g_usages_none cf sp I R OK st a i HR L). Qed.

  Lemma gs_delete_usages st i : G st -> linked I st i -> (forall l, user I st i l -> separable I st (l_index l)) ->
    (forall x, x <> i -> ~ is_link I st x i i) ->
    exists st' L, G st' /\ NoDup L /\ (forall l, In l L <-> user I st i l) /\ removed I st st' L /\
      (forall H B (h : uwrite H B) x, d_delete_usages_with cf I h i st x = Val (st', told h L x, Ok tt)).
  Proof.
    intros K LI D NB. destruct (gs_range _ _ K LI) as [I0 IA]. gopen. gst GR st a HR.
    destruct (g_delete_usages cf CF sp I R OK SPD SPQ st a i HR I0 IA D NB) as (st' & a' & L & R' & ND & IN & RM & E & _).
    exists st', L. split; [apply GR; eauto|auto].
  Qed.
  Lemma gs_delete_usages_double st i x : G st -> linked I st i -> (forall l, user I st i l -> separable I st (l_index l)) ->
    x <> i -> is_link I st x i i ->
    exists st', G st' /\ d_delete_usages cf I i st = Val (st', Err (NotExists x)).
  Proof.
    intros K LI D XI LX. destruct (gs_range _ _ K LI) as [I0 IA]. gopen. gst GR st a HR.
    destruct (g_delete_usages_double cf CF sp I R OK SPD SPQ st a i x HR I0 IA D XI LX) as (st' & a' & R' & E).
    exists st'. split; [apply GR; eauto|auto].
  Qed.

  Lemma gs_rebase st old new : G st -> old <> new -> linked I st old -> distinct_pairs I st ->
    (forall x, x <> old -> ~ is_link I st x old old) ->
    (forall i j s t, moved I st old new i s t -> moved I st old new j s t -> (s, t) <> (0, 0) -> i = j) ->
    exists st', G st' /\ (forall i s t, is_link I st' i s t <-> moved I st old new i s t) /\
      (forall H B (h : uwrite H B) x, exists x', d_rebase_with cf I h old new st x = Val (st', x', Ok tt)).
  Proof.
    intros K NE LO D NB FD. gopen. gst GR st a HR.
    destruct (g_rebase_with cf CF sp I R OK SPU SPQ st a old new HR NE LO D NB FD) as (st' & a' & R' & E1 & _ & E2 & _).
    exists st'. split; [apply GR; eauto|auto].
  Qed.

  (** *** The default methods with a handler *)
  Lemma gs_update_with st i s t : G st -> linked I st i -> separable I st i ->
    exists st' b, G st' /\ is_link I st' i s t /\ frame I st st' i /\
      forall H (h : whandler H) x, to_flow (d_update_with I (uw_of h) i s t st x) =
        Val (st', fst (h x b (mkLink i s t)), Ok (snd (h x b (mkLink i s t)))).
  Proof.
    intros K L SEP. destruct (gs_update st [i] [i; s; t] i s t K L SEP eq_refl eq_refl eq_refl) as (st' & b & K' & C & L' & F).
    exists st', b. split; auto. split; auto. split; auto. intros H h x. unfold d_update_with, d_update_by_with, to_flow.
    rewrite (wadapt_once _ _ _ _ _ _ _ _ C). cbn [obind rmap]. now rewrite uw_fst, uw_flow.
  Qed.
  Lemma gs_update_with_none st i s t : G st -> no_link I st i ->
    forall H (h : whandler H) x, to_flow (d_update_with I (uw_of h) i s t st x) = Val (st, x, Err (NotExists i)).
  Proof.
    intros K L H h x. pose proof (gs_update_none st [i] [i; s; t] i s t K L eq_refl eq_refl eq_refl) as C.
    unfold d_update_with, d_update_by_with, to_flow. now rewrite (wadapt_fail _ _ _ _ _ _ _ C).
  Qed.
  Lemma gs_delete_with st i s t : G st -> is_link I st i s t -> separable I st i ->
    exists st', G st' /\ no_link I st' i /\ frame I st st' i /\
      forall H (h : whandler H) x, exists o, d_delete_with I (uw_of h) i st x =
        Val (st', fst (h x (mkLink i s t) nothing), Ok o).
  Proof.
    intros K L SEP. destruct (gs_delete st [i] i s t K L SEP eq_refl) as (st' & K' & C & L' & F).
    exists st'. split; auto. split; auto. split; auto. intros H h x. unfold d_delete_with, d_delete_by_with.
    rewrite (wadapt_once _ _ _ _ _ _ _ _ C). rewrite uw_fst. eauto.
  Qed.
  Lemma gs_delete_with_none st i : G st -> no_link I st i ->
    forall H (h : whandler H) x, d_delete_with I (uw_of h) i st x = Val (st, x, Err (NotExists i)).
  Proof.
    intros K L H h x. pose proof (gs_delete_none st [i] i K L eq_refl) as C.
    unfold d_delete_with, d_delete_by_with. now rewrite (wadapt_fail _ _ _ _ _ _ _ C).
  Qed.

  (** *** Distinct pairs *)
  Lemma link_fun st i s t s' t' : is_link I st i s t -> is_link I st i s' t' -> s = s' /\ t = t'.
  Proof. unfold is_link. intros A B. rewrite A in B. injection B. auto. Qed.
  Lemma link_no st i s t : is_link I st i s t -> no_link I st i -> False.
  Proof. unfold is_link, no_link. congruence. Qed.
  Lemma link_frame st st' i j s t : frame I st st' i -> j <> i -> (is_link I st' j s t <-> is_link I st j s t).
  Proof. intros F J. unfold is_link. now rewrite (F j J). Qed.

  Lemma dist_same st st' : same_links I st st' -> distinct_pairs I st -> distinct_pairs I st'.
  Proof. intros E D i j s t A B. unfold is_link in A, B. rewrite E in A, B. exact (D _ _ _ _ A B). Qed.
  Lemma dist_remove st st' i : no_link I st' i -> frame I st st' i -> distinct_pairs I st -> distinct_pairs I st'.
  Proof.
    intros NL F D j k s t A B.
    assert (j <> i) by (intros ->; exact (link_no _ _ _ _ A NL)).
    assert (k <> i) by (intros ->; exact (link_no _ _ _ _ B NL)).
    apply (link_frame _ _ _ _ _ _ F) in A, B; auto. exact (D _ _ _ _ A B).
  Qed.
  Lemma dist_set st st' i s t : is_link I st' i s t -> frame I st st' i ->
    (forall j, j <> i -> ~ is_link I st j s t) \/ (s, t) = (0, 0) -> distinct_pairs I st -> distinct_pairs I st'.
  Proof.
    intros L F NH D j k s' t' A B NZ.
    destruct (N.eq_dec j i) as [->|J], (N.eq_dec k i) as [->|K]; auto.
    - destruct (link_fun _ _ _ _ _ _ L A) as [<- <-]. apply (link_frame _ _ _ _ _ _ F K) in B.
      destruct NH as [NH|NH]; [destruct (NH k K B)|contradiction].
    - destruct (link_fun _ _ _ _ _ _ L B) as [<- <-]. apply (link_frame _ _ _ _ _ _ F J) in A.
      destruct NH as [NH|NH]; [destruct (NH j J A)|contradiction].
    - apply (link_frame _ _ _ _ _ _ F J) in A. apply (link_frame _ _ _ _ _ _ F K) in B. exact (D _ _ _ _ A B NZ).
  Qed.
End Good.
