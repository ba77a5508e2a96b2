(** The default methods called on a decorated store, and decorators on top of decorators
    (proofs; the statements are repeated in PropStacks.v). *)
From Coq Require Import NArith List Bool Lia.
From Verif Require Import Base Trees Lists TreeImpl Spec Iface Doublets DoubletsOK Obs Hist Claims Decorators
  UnitModel UnitInv UnitOps UnitLinks UnitHist UnitClaims GoodStore DecoratorClaims.
Import ListNotations.
Open Scope N_scope.

(** ** Statements *)
(** Every end of a link is null or a link. *)
Definition present {S} (I : LinksI S) (st : S) (v : N) : Prop := v = 0 \/ linked I st v.
Definition closed {S} (I : LinksI S) (st : S) : Prop :=
  forall i s t, is_link I st i s t -> present I st s /\ present I st t.
(** Creation failed: the range is full or there is no memory; the links are as they were. *)
Definition not_created {S} (I : LinksI S) (st : S) (o : out (S * result N)) : Prop :=
  exists st' e, same_links I st st' /\ o = Val (st', Err e) /\
    fails_with (fun H h x => li_create I H h [] st x) st' e.
(** Through the store [D] over [I], starting in [st], pairs stay distinct and ends stay present,
    whatever is created, deleted and updated to pairs of present ends. *)
Definition keeps (cf : cfg) {S} (I D : LinksI S) (st : S) : Prop :=
  forall st' d,
    hist D (fun s => s = st) (fun _ _ => False)
      (fun st _ s t => real_pair cf s t /\ present I st s /\ present I st t) (fun _ _ => True) st' d ->
    distinct_pairs I st' /\ closed I st'.

(** ** create_link and update over any interface *)
Lemma cl_once {S} (D : LinksI S) st st1 st2 n s t b k :
  calls_once (fun H h x => li_create D H h [] st x) st1 nothing (mkLink n 0 0) ->
  calls_once (fun H h x => li_update D H h [n] [n; s; t] st1 x) st2 b k ->
  d_create_link D s t st = Val (st2, Ok (l_index k)).
Proof.
  intros C U. unfold d_create_link, d_create_link_with, d_create_with, d_create_by_with, d_update_with, d_update_by_with.
  rewrite C. cbn [obind wadapt fst snd fuse_call rmap l_index]. rewrite U. reflexivity.
Qed.
Lemma cl_twice {S} (D : LinksI S) st st1 st2 n s t b1 a1 b2 k :
  calls_once (fun H h x => li_create D H h [] st x) st1 nothing (mkLink n 0 0) ->
  calls_twice (fun H h x => li_update D H h [n] [n; s; t] st1 x) st2 b1 a1 b2 k ->
  d_create_link D s t st = Val (st2, Ok (l_index k)).
Proof.
  intros C U. unfold d_create_link, d_create_link_with, d_create_with, d_create_by_with, d_update_with, d_update_by_with.
  rewrite C. cbn [obind wadapt fst snd fuse_call rmap l_index]. rewrite U. reflexivity.
Qed.
Lemma cl_fail {S} (D : LinksI S) st st1 st2 n s t e :
  calls_once (fun H h x => li_create D H h [] st x) st1 nothing (mkLink n 0 0) ->
  fails_with (fun H h x => li_update D H h [n] [n; s; t] st1 x) st2 e ->
  d_create_link D s t st = Val (st2, Err e).
Proof.
  intros C U. unfold d_create_link, d_create_link_with, d_create_with, d_create_by_with, d_update_with, d_update_by_with.
  rewrite C. cbn [obind wadapt fst snd fuse_call rmap l_index]. rewrite U. reflexivity.
Qed.
Lemma cl_create_fail {S} (D : LinksI S) st st1 s t e :
  fails_with (fun H h x => li_create D H h [] st x) st1 e -> d_create_link D s t st = Val (st1, Err e).
Proof. intros C. unfold d_create_link, d_create_link_with, d_create_with, d_create_by_with. rewrite C. reflexivity. Qed.
Lemma du_once {S} (D : LinksI S) st st' i s t b k :
  calls_once (fun H h x => li_update D H h [i] [i; s; t] st x) st' b k -> d_update D i s t st = Val (st', Ok (l_index k)).
Proof. intros U. unfold d_update, d_update_by, d_update_by_with. rewrite U. reflexivity. Qed.
Lemma du_twice {S} (D : LinksI S) st st' i s t b1 a1 b2 k :
  calls_twice (fun H h x => li_update D H h [i] [i; s; t] st x) st' b1 a1 b2 k -> d_update D i s t st = Val (st', Ok (l_index k)).
Proof. intros U. unfold d_update, d_update_by, d_update_by_with. rewrite U. reflexivity. Qed.

Section Stack.
  Variable cf : cfg.
  Context {S : Type}.
  Variable I : LinksI S.
  Variable G : S -> Prop.
  Hypothesis GS : good_store cf I G.
  Notation any := (c_any cf).

  Lemma link_linked st i s t : is_link I st i s t -> linked I st i.
  Proof. intros L. exists s, t. exact L. Qed.
  Lemma adds_dist st st' n : adds cf I st st' n 0 0 -> distinct_pairs I st -> distinct_pairs I st'.
  Proof. intros (_ & _ & L & F) D. eapply (dist_set _ _ _ _ 0 0); eauto. Qed.
  (** Taking the new link out again. *)
  Lemma adds_undone st st1 st2 n s t : adds cf I st st1 n s t -> no_link I st2 n -> frame I st1 st2 n -> same_links I st st2.
  Proof.
    intros (_ & N & _ & F) N2 F2 j. destruct (N.eq_dec j n) as [->|J].
    - unfold no_link in N, N2. congruence.
    - now rewrite F2, F.
  Qed.
  Lemma adds_set st st1 st2 n s t s' t' : adds cf I st st1 n s t -> is_link I st2 n s' t' -> frame I st1 st2 n -> adds cf I st st2 n s' t'.
  Proof.
    intros (R & N & _ & F) L2 F2. split; auto. split; auto. split; auto.
    intros j J. now rewrite F2, F.
  Qed.
  Lemma adds_link st st1 n j s t : adds cf I st st1 n 0 0 -> s <> 0 -> (is_link I st1 j s t <-> is_link I st j s t).
  Proof.
    intros (_ & N & L & F) S0. destruct (N.eq_dec j n) as [->|J].
    - split; intros K; [destruct (link_fun _ _ _ _ _ _ _ L K); congruence|destruct (link_no _ _ _ _ _ K N)].
    - now apply link_frame with (i := n).
  Qed.

  (** Creation as the first step of create_link or create_point through a store [D] that creates
      as [I] does. *)
  Lemma after_create (D : LinksI S) (f : S -> out (S * result N)) st (Q : S -> Prop) : li_create D = li_create I -> G st ->
    (forall st1 e, fails_with (fun H h x => li_create D H h [] st x) st1 e -> f st = Val (st1, Err e)) ->
    (forall st1 n, G st1 -> adds cf I st st1 n 0 0 ->
       calls_once (fun H h x => li_create D H h [] st x) st1 nothing (mkLink n 0 0) -> Q st) ->
    not_created I st (f st) \/ Q st.
  Proof.
    intros EC K FF FC. destruct (gs_create cf I G GS st [] K) as [(st1 & e & K1 & SM & F)|(st1 & n & K1 & A & C)].
    - left. exists st1, e. split; auto. split; auto. apply FF. now rewrite EC.
    - right. apply (FC st1 n); auto. now rewrite EC.
  Qed.

  (** *** create_link through the unique decorators *)
  Lemma ur_create_held st j s t : G st -> distinct_pairs I st -> real_pair cf s t -> is_link I st j s t ->
    not_created I st (d_create_link (unique_resolver cf I) s t st) \/
    exists st', G st' /\ same_links I st st' /\ d_create_link (unique_resolver cf I) s t st = Val (st', Ok j).
  Proof.
    intros K D RP LJ. apply (after_create (unique_resolver cf I) (fun st => d_create_link (unique_resolver cf I) s t st) st
      (fun st => exists st', G st' /\ same_links I st st' /\ d_create_link (unique_resolver cf I) s t st = Val (st', Ok j))); auto.
    { intros. now apply cl_create_fail. }
    intros st1 n K1 A C. pose proof A as (_ & N & L & F).
    assert (JN : j <> n) by (intros ->; exact (link_no _ _ _ _ _ LJ N)).
    assert (LJ1 : is_link I st1 j s t) by (apply (adds_link _ _ _ _ _ _ A); auto; apply RP).
    destruct (ur_other cf I G GS st1 [n] [n; s; t] n j s t 0 0 K1 RP (adds_dist _ _ _ A D) LJ1 JN L eq_refl eq_refl eq_refl)
      as (st2 & b & K2 & C2 & N2 & F2).
    exists st2. split; auto. split; [eapply adds_undone; eauto|]. exact (cl_twice _ _ _ _ _ _ _ _ _ _ _ C C2).
  Qed.
  Lemma ur_create_free st s t : G st -> distinct_pairs I st -> real_pair cf s t -> (forall j, ~ is_link I st j s t) ->
    not_created I st (d_create_link (unique_resolver cf I) s t st) \/
    exists st' n, G st' /\ adds cf I st st' n s t /\ d_create_link (unique_resolver cf I) s t st = Val (st', Ok n).
  Proof.
    intros K D RP NH. apply (after_create (unique_resolver cf I) (fun st => d_create_link (unique_resolver cf I) s t st) st
      (fun st => exists st' n, G st' /\ adds cf I st st' n s t /\ d_create_link (unique_resolver cf I) s t st = Val (st', Ok n))); auto.
    { intros. now apply cl_create_fail. }
    intros st1 n K1 A C. pose proof A as (_ & N & L & F).
    assert (NH1 : forall j, ~ is_link I st1 j s t) by (intros j X; apply (adds_link _ _ _ _ _ _ A) in X; [eapply NH; eauto|apply RP]).
    destruct (ur_free cf I G GS st1 [n] [n; s; t] n s t K1 RP NH1 (link_linked _ _ _ _ L) (or_introl L) eq_refl eq_refl eq_refl)
      as (st2 & b & K2 & C2 & L2 & F2).
    exists st2, n. split; auto. split; [eapply adds_set; eauto|]. exact (cl_once _ _ _ _ _ _ _ _ _ C C2).
  Qed.
  Lemma uv_create_held st j s t : G st -> real_pair cf s t -> is_link I st j s t ->
    not_created I st (d_create_link (unique_validator cf I) s t st) \/
    exists st' n, G st' /\ adds cf I st st' n 0 0 /\ d_create_link (unique_validator cf I) s t st = Val (st', Err (AlreadyExists s t)).
  Proof.
    intros K RP LJ. apply (after_create (unique_validator cf I) (fun st => d_create_link (unique_validator cf I) s t st) st
      (fun st => exists st' n, G st' /\ adds cf I st st' n 0 0 /\ d_create_link (unique_validator cf I) s t st = Val (st', Err (AlreadyExists s t)))); auto.
    { intros. now apply cl_create_fail. }
    intros st1 n K1 A C.
    assert (LJ1 : is_link I st1 j s t) by (apply (adds_link _ _ _ _ _ _ A); auto; apply RP).
    exists st1, n. split; auto. split; auto. apply (cl_fail _ _ _ _ _ _ _ _ C).
    exact (uv_held cf I G GS st1 [n] [n; s; t] n j s t K1 RP LJ1 eq_refl eq_refl eq_refl).
  Qed.
  Lemma uv_create_free st s t : G st -> real_pair cf s t -> (forall j, ~ is_link I st j s t) ->
    not_created I st (d_create_link (unique_validator cf I) s t st) \/
    exists st' n, G st' /\ adds cf I st st' n s t /\ d_create_link (unique_validator cf I) s t st = Val (st', Ok n).
  Proof.
    intros K RP NH. apply (after_create (unique_validator cf I) (fun st => d_create_link (unique_validator cf I) s t st) st
      (fun st => exists st' n, G st' /\ adds cf I st st' n s t /\ d_create_link (unique_validator cf I) s t st = Val (st', Ok n))); auto.
    { intros. now apply cl_create_fail. }
    intros st1 n K1 A C. pose proof A as (_ & N & L & F).
    assert (NH1 : forall j, ~ is_link I st1 j s t) by (intros j X; apply (adds_link _ _ _ _ _ _ A) in X; [eapply NH; eauto|apply RP]).
    destruct (gs_update cf I G GS st1 [n] [n; s; t] n s t K1 (link_linked _ _ _ _ L) (or_introl L) eq_refl eq_refl eq_refl)
      as (st2 & b & K2 & C2 & L2 & F2).
    exists st2, n. split; auto. split; [eapply adds_set; eauto|].
    apply (cl_once (unique_validator cf I) st st1 st2 n s t b (mkLink n s t) C).
    intros H h x. rewrite (uv_free cf I G GS st1 [n] [n; s; t] s t H h x K1 RP NH1 eq_refl eq_refl). apply C2.
  Qed.

  (** *** Closed stores *)
  Lemma closed_unused st st1 n : closed I st -> adds cf I st st1 n 0 0 -> forall l, ~ user I st1 n l.
  Proof.
    intros CL (R & N & L & F) [k s t] (X & KN & E). cbn [l_index l_source l_target] in *.
    rewrite F in X by auto. destruct (CL k s t X) as [P1 P2].
    assert (NL : ~ present I st n).
    { intros [->|(s' & t' & Y)]; [lia|]. exact (link_no _ _ _ _ _ Y N). }
    destruct E as [->| ->]; auto.
  Qed.
  Lemma us_create st s t : G st -> closed I st ->
    not_created I st (d_create_link (usages_validator cf I) s t st) \/
    exists st' n, G st' /\ adds cf I st st' n s t /\ d_create_link (usages_validator cf I) s t st = Val (st', Ok n).
  Proof.
    intros K CL. apply (after_create (usages_validator cf I) (fun st => d_create_link (usages_validator cf I) s t st) st
      (fun st => exists st' n, G st' /\ adds cf I st st' n s t /\ d_create_link (usages_validator cf I) s t st = Val (st', Ok n))); auto.
    { intros. now apply cl_create_fail. }
    intros st1 n K1 A C. pose proof A as (_ & N & L & F).
    destruct (gs_update cf I G GS st1 [n] [n; s; t] n s t K1 (link_linked _ _ _ _ L) (or_introl L) eq_refl eq_refl eq_refl)
      as (st2 & b & K2 & C2 & L2 & F2).
    exists st2, n. split; auto. split; [eapply adds_set; eauto|].
    apply (cl_once (usages_validator cf I) st st1 st2 n s t b (mkLink n s t) C).
    intros H h x. cbn [usages_validator li_update].
    rewrite (if_unused_free cf I G GS st1 [n] n _ _ _ _ K1 (link_linked _ _ _ _ L) (closed_unused _ _ _ CL A) eq_refl).
    apply C2.
  Qed.

  Definition inv (st : S) : Prop := G st /\ distinct_pairs I st /\ closed I st.

  Lemma inv_same st st' : G st' -> same_links I st st' -> inv st -> inv st'.
  Proof.
    intros K SM (_ & D & CL). split; auto. split; [eapply dist_same; eauto|].
    intros i s t L. unfold is_link in L. rewrite SM in L. destruct (CL i s t L) as [P1 P2].
    unfold present, linked, is_link in *. split; [destruct P1 as [->|(a & b & X)]|destruct P2 as [->|(a & b & X)]]; auto;
      right; exists a, b; now rewrite SM.
  Qed.
  Lemma present_adds st st' n s t v : adds cf I st st' n s t -> present I st v -> present I st' v.
  Proof.
    intros (_ & N & L & F) [->|(a & b & X)]; [now left|right]. exists a, b. unfold is_link. rewrite F; auto.
    intros ->. exact (link_no _ _ _ _ _ X N).
  Qed.
  Lemma inv_create st H (h : whandler H) q x st' x' r : inv st -> li_create I H h q st x = Val (st', x', r) -> inv st'.
  Proof.
    intros IV E. pose proof IV as (K & D & CL).
    destruct (gs_create cf I G GS st q K) as [(st2 & e & K2 & SM & F)|(st2 & n & K2 & A & C)].
    - rewrite F in E. injection E as <- _ _. eapply inv_same; eauto.
    - rewrite C in E. injection E as <- _ _. split; auto. split; [eapply adds_dist; eauto|].
      intros i s t L. destruct (N.eq_dec i n) as [->|NE].
      + destruct A as (_ & _ & L2 & _). destruct (link_fun _ _ _ _ _ _ _ L2 L) as [<- <-]. split; now left.
      + pose proof A as (_ & _ & _ & F). apply (link_frame _ _ _ _ _ _ _ F NE) in L. destruct (CL _ _ _ L).
        split; eapply present_adds; eauto.
  Qed.
  Lemma inv_remove st st' i : inv st -> G st' -> no_link I st' i -> frame I st st' i -> (forall l, ~ user I st i l) -> inv st'.
  Proof.
    intros (K & D & CL) K' NL F NU. split; auto. split; [eapply dist_remove; eauto|].
    intros k s t L. assert (KI : k <> i) by (intros ->; exact (link_no _ _ _ _ _ L NL)).
    apply (link_frame _ _ _ _ _ _ _ F KI) in L. destruct (CL _ _ _ L) as [P1 P2].
    assert (PR : forall v, v <> i -> present I st v -> present I st' v).
    { intros v V [->|(a & b & X)]; [now left|right]. exists a, b. now apply (link_frame _ _ _ _ _ _ _ F V). }
    split; apply PR; auto; intros ->.
    - apply (NU (mkLink k i t)). split; [exact L|]. cbn. auto.
    - apply (NU (mkLink k s i)). split; [exact L|]. cbn. auto.
  Qed.
  Lemma inv_set st st' i s t : inv st -> G st' -> linked I st i -> is_link I st' i s t -> frame I st st' i ->
    (forall j, j <> i -> ~ is_link I st j s t) \/ (s, t) = (0, 0) -> present I st s -> present I st t -> inv st'.
  Proof.
    intros (K & D & CL) K' LI L F NH P1 P2. split; auto. split; [eapply dist_set; eauto|].
    assert (PR : forall v, present I st v -> present I st' v).
    { intros v [->|(a & b & X)]; [now left|right]. destruct (N.eq_dec v i) as [->|V]; [now exists s, t|].
      exists a, b. now apply (link_frame _ _ _ _ _ _ _ F V). }
    intros k s' t' L'. destruct (N.eq_dec k i) as [->|KI].
    - destruct (link_fun _ _ _ _ _ _ _ L L') as [<- <-]. split; auto.
    - apply (link_frame _ _ _ _ _ _ _ F KI) in L'. destruct (CL _ _ _ L'). split; auto.
  Qed.

  (** What the check of the usages does. *)
  Lemma unused_dec st q i : G st -> qget q 0 = Val i ->
    (linked I st i /\ (forall l, ~ user I st i l) /\
       forall H A (x : H) (k : out (S * H * result A)), if_unused cf I q st x k = k) \/
    (exists e, forall H A (x : H) (k : out (S * H * result A)), if_unused cf I q st x k = Val (st, x, Err e)).
  Proof.
    intros K Q. destruct (gs_dec cf I G GS st i K) as [L|L].
    - destruct (gs_usages cf I G GS st i K L) as (U & _ & IN). destruct U as [|u U].
      + left. split; auto. assert (NU : forall l, ~ user I st i l) by (intros l X; apply IN in X; destruct X).
        split; auto. intros. now apply (if_unused_free cf I G GS st q i).
      + right. destruct (if_unused_used cf I G GS st q i u K L) as (L' & _ & E); auto.
        { apply IN. now left. }
        exists (HasUsages L'). intros. apply E.
    - right. exists (NotExists i). intros. now apply (if_unused_none cf I G GS).
  Qed.

  (** *** Histories *)
  Notation okU := (fun st _ s t => real_pair cf s t /\ present I st s /\ present I st t).
  Lemma stack_keeps (D : LinksI S) st0 : li_create D = li_create I -> inv st0 ->
    (forall st H (h : whandler H) q ch i s t x st' x' r, inv st ->
       qget q 0 = Val i -> qget ch 1 = Val s -> qget ch 2 = Val t -> real_pair cf s t -> present I st s -> present I st t ->
       li_update D H h q ch st x = Val (st', x', r) -> inv st') ->
    (forall st H (h : whandler H) q i x st' x' r, inv st -> qget q 0 = Val i ->
       li_delete D H h q st x = Val (st', x', r) -> inv st') ->
    keeps cf I D st0.
  Proof.
    intros EC I0 UP DE st d HH.
    assert (IV : inv st); [|split; apply IV].
    induction HH as [st ->|st d H h q x st' x' r HH IH E|st d H h q ch i s t x st' x' r HH IH Q1 Q2 Q3 (RP & P1 & P2) E
      |st d H h q i x st' x' f HH IH Q _ E|st d H h q i x st' x' f HH IH Q _ E|st d st' HH IH []].
    - exact I0.
    - rewrite EC in E. eapply inv_create; eauto.
    - eapply UP; eauto.
    - eapply DE; eauto.
    - eapply DE; eauto.
  Qed.

  Lemma inv_update_free st H (h : whandler H) q ch i s t x st' x' r : inv st -> linked I st i ->
    qget q 0 = Val i -> qget ch 1 = Val s -> qget ch 2 = Val t -> present I st s -> present I st t ->
    (forall j, j <> i -> ~ is_link I st j s t) \/ (s, t) = (0, 0) ->
    li_update I H h q ch st x = Val (st', x', r) -> inv st'.
  Proof.
    intros IV L Q1 Q2 Q3 P1 P2 NH E. pose proof IV as (K & D & CL).
    destruct (gs_update cf I G GS st q ch i s t K L (distinct_separable _ _ _ D) Q1 Q2 Q3) as (st2 & b & K2 & C & L2 & F2).
    rewrite C in E. injection E as <- _ _. eapply inv_set; eauto.
  Qed.
  Lemma inv_delete_unused st H (h : whandler H) q i x st' x' r : inv st -> linked I st i -> (forall l, ~ user I st i l) ->
    qget q 0 = Val i -> li_delete I H h q st x = Val (st', x', r) -> inv st'.
  Proof.
    intros IV (s & t & L) NU Q E. pose proof IV as (K & D & CL).
    destruct (gs_delete cf I G GS st q i s t K L (distinct_separable _ _ _ D) Q) as (st2 & K2 & C & N2 & F2).
    rewrite C in E. injection E as <- _ _. eapply inv_remove; eauto.
  Qed.
  Lemma us_delete_inv st H (h : whandler H) q i x st' x' r : inv st -> qget q 0 = Val i ->
    li_delete (usages_validator cf I) H h q st x = Val (st', x', r) -> inv st'.
  Proof.
    intros IV Q E. cbn [usages_validator li_delete] in E. destruct (unused_dec st q i (proj1 IV) Q) as [(L & NU & F)|(e & F)]; rewrite F in E.
    - eapply inv_delete_unused; eauto.
    - injection E as <- _ _. exact IV.
  Qed.

  Lemma us_over_uv st0 : inv st0 -> keeps cf I (usages_validator cf (unique_validator cf I)) st0.
  Proof.
    intros I0. apply stack_keeps; auto.
    - intros st H h q ch i s t x st' x' r IV Q1 Q2 Q3 RP P1 P2 E.
      change (if_unused cf I q st x (li_update (unique_validator cf I) H h q ch st x) = Val (st', x', r)) in E.
      destruct (unused_dec st q i (proj1 IV) Q1) as [(L & NU & F)|(e & F)]; rewrite F in E; [|now injection E as <- _ _].
      destruct (held_dec cf I G GS st s t (proj1 IV) RP) as [(j & LJ)|NH].
      + pose proof (uv_held cf I G GS st q ch i j s t (proj1 IV) RP LJ Q1 Q2 Q3) as X. rewrite X in E. now injection E as <- _ _.
      + rewrite (uv_free cf I G GS st q ch s t _ _ _ (proj1 IV) RP NH Q2 Q3) in E. eapply inv_update_free; eauto.
    - intros st H h q i x st' x' r IV Q E. eapply us_delete_inv; eauto.
  Qed.
  Lemma uv_over_us st0 : inv st0 -> keeps cf I (unique_validator cf (usages_validator cf I)) st0.
  Proof.
    intros I0. apply stack_keeps; auto.
    - intros st H h q ch i s t x st' x' r IV Q1 Q2 Q3 RP P1 P2 E. cbn [unique_validator li_update] in E.
      rewrite Q2, Q3 in E. cbn [obind] in E.
      change (d_found (usages_validator cf I) st [any; s; t]) with (d_found I st [any; s; t]) in E.
      destruct RP as (S0 & SA & TA).
      destruct (gs_search cf I G GS st s t (proj1 IV) S0 SA TA) as [(_ & X & NH)|(k & _ & X & _)]; rewrite X in E; cbn [obind] in E.
      2:{ now injection E as <- _ _. }
      cbn [usages_validator li_update] in E.
      destruct (unused_dec st q i (proj1 IV) Q1) as [(L & NU & F)|(e & F)]; rewrite F in E; [|now injection E as <- _ _].
      eapply inv_update_free; eauto.
    - intros st H h q i x st' x' r IV Q E. eapply us_delete_inv; eauto.
  Qed.
  Lemma us_over_ur st0 : inv st0 -> keeps cf I (usages_validator cf (unique_resolver cf I)) st0.
  Proof.
    intros I0. apply stack_keeps; auto.
    - intros st H h q ch i s t x st' x' r IV Q1 Q2 Q3 RP P1 P2 E. pose proof IV as (K & D & CL).
      change (if_unused cf I q st x (li_update (unique_resolver cf I) H h q ch st x) = Val (st', x', r)) in E.
      destruct (unused_dec st q i K Q1) as [(L & NU & F)|(e & F)]; rewrite F in E; [|now injection E as <- _ _].
      destruct (held_dec cf I G GS st s t K RP) as [(j & LJ)|NH].
      + destruct (N.eq_dec j i) as [->|JI].
        * destruct (ur_own cf I G GS _ q ch i s t K RP D LJ Q1 Q2 Q3) as (st2 & K2 & N2 & F2 & C). rewrite C in E. injection E as <- _ _.
          eapply inv_remove; eauto.
        * destruct L as (s0 & t0 & L). destruct (ur_other cf I G GS _ q ch i j s t s0 t0 K RP D LJ JI L Q1 Q2 Q3) as (st2 & b & K2 & C & N2 & F2).
          rewrite C in E. injection E as <- _ _. eapply inv_remove; eauto.
      + destruct (ur_free cf I G GS _ q ch i s t K RP NH L (distinct_separable _ _ _ D) Q1 Q2 Q3) as (st2 & b & K2 & C & L2 & F2).
        rewrite C in E. injection E as <- _ _. eapply inv_set; eauto.
    - intros st H h q i x st' x' r IV Q E. eapply us_delete_inv; eauto.
  Qed.

  (** The default methods of the wrapped store, called by a resolver on top of a validator. *)
  Lemma us_update_with st i s t H (h : whandler H) x : d_update_with (usages_validator cf I) (uw_of h) i s t st x =
    if_unused cf I [i] st x (d_update_with I (uw_of h) i s t st x).
  Proof.
    unfold d_update_with, d_update_by_with. cbn [usages_validator li_update]. unfold if_unused.
    destruct (qget [i] (c_index_part cf)) as [j| | |]; cbn [obind]; auto.
    destruct (d_usages cf I st j) as [[[|u us]|e]| | |]; cbn [obind rmap]; auto.
    destruct (get_all I st (u :: us)) as [[ls|e]| | |]; reflexivity.
  Qed.
  Lemma us_delete_with st i H (h : whandler H) x : d_delete_with (usages_validator cf I) (uw_of h) i st x =
    if_unused cf I [i] st x (d_delete_with I (uw_of h) i st x).
  Proof.
    unfold d_delete_with, d_delete_by_with. cbn [usages_validator li_delete]. unfold if_unused.
    destruct (qget [i] (c_index_part cf)) as [j| | |]; cbn [obind]; auto.
    destruct (d_usages cf I st j) as [[[|u us]|e]| | |]; cbn [obind rmap]; auto.
    destruct (get_all I st (u :: us)) as [[ls|e]| | |]; reflexivity.
  Qed.
  Lemma us_update_with_inv st i s t H (h : whandler H) x st' x' r : inv st -> present I st s -> present I st t ->
    (forall j, j <> i -> ~ is_link I st j s t) ->
    to_flow (d_update_with (usages_validator cf I) (uw_of h) i s t st x) = Val (st', x', r) -> inv st'.
  Proof.
    intros IV P1 P2 NH E. pose proof IV as (K & D & CL). rewrite us_update_with in E.
    destruct (unused_dec st [i] i K eq_refl) as [(L & NU & F)|(e & F)]; rewrite F in E.
    - destruct (gs_update_with cf I G GS st i s t K L (distinct_separable _ _ _ D)) as (st2 & b & K2 & L2 & F2 & C).
      rewrite C in E. injection E as <- _ _. eapply inv_set; eauto.
    - cbn in E. now injection E as <- _ _.
  Qed.
  Lemma ur_over_us st0 : inv st0 -> keeps cf I (unique_resolver cf (usages_validator cf I)) st0.
  Proof.
    intros I0. apply stack_keeps; auto.
    - intros st H h q ch i s t x st' x' r IV Q1 Q2 Q3 RP P1 P2 E. pose proof IV as (K & D & CL). cbn [unique_resolver li_update] in E.
      rewrite Q1, Q2, Q3 in E. cbn [obind] in E.
      change (d_search cf (usages_validator cf I) st s t) with (d_search cf I st s t) in E.
      destruct RP as (S0 & SA & TA).
      destruct (gs_search cf I G GS st s t K S0 SA TA) as [(X & _ & NH)|(k & X & _ & LK)]; rewrite X in E; cbn [obind] in E.
      + eapply us_update_with_inv; [exact IV|exact P1|exact P2|auto|exact E].
      + unfold then_ok in E. rewrite us_delete_with in E.
        destruct (unused_dec st [i] i K eq_refl) as [(L & NU & F)|(e & F)]; rewrite F in E; cbn [obind] in E; [|now injection E as <- _ _].
        destruct L as (s0 & t0 & L).
        destruct (gs_delete_with cf I G GS st i s0 t0 K L (distinct_separable _ _ _ D)) as (st1 & K1 & N1 & F1 & C1).
        destruct (C1 H h x) as (o & E1). rewrite E1 in E. cbn [obind] in E.
        assert (IV1 : inv st1) by (eapply inv_remove; eauto).
        destruct (N.eq_dec k i) as [->|KI].
        * rewrite us_update_with in E. rewrite (if_unused_none cf I G GS st1 [i] i _ _ _ _ K1 N1 eq_refl) in E.
          cbn in E. now injection E as <- _ _.
        * assert (LK1 : is_link I st1 k s t) by (now apply (link_frame _ _ _ _ _ _ _ F1 KI)).
          destruct IV1 as (_ & D1 & CL1). destruct (CL1 _ _ _ LK1) as [P1' P2'].
          eapply us_update_with_inv; [|exact P1'|exact P2'| |exact E].
          { split; auto. }
          intros j J X'. apply J. apply (D1 j k s t X' LK1). congruence.
    - intros st H h q i x st' x' r IV Q E. eapply us_delete_inv; eauto.
  Qed.
  Lemma nn_over_us st0 : inv st0 ->
    (forall st q i H (h : whandler H) x st' x' r, inv st -> qget q 0 = Val i ->
       li_delete (non_null_deletion_resolver cf (usages_validator cf I)) H h q st x = Val (st', x', r) -> inv st').
  Proof.
    intros _ st q i H h x st' x' r IV Q E. pose proof IV as (K & D & CL). cbn [non_null_deletion_resolver li_delete] in E.
    rewrite Q in E. cbn [obind] in E. unfold then_ok, d_update_by_with in E. cbn [usages_validator li_update] in E.
    destruct (unused_dec st q i K Q) as [(L & NU & F)|(e & F)]; rewrite F in E; cbn [obind rmap] in E; [|now injection E as <- _ _].
    rewrite (ok_null _ (proj1 GS)) in E.
    destruct (gs_update cf I G GS st q [i; 0; 0] i 0 0 K L (distinct_separable _ _ _ D) Q eq_refl eq_refl) as (st2 & b & K2 & C & L2 & F2).
    rewrite C in E. destruct (wadapt (uw_of h) (x, None) b (mkLink i 0 0)) as [[x1 o] f]. cbn [fst snd obind rmap] in E.
    eapply (us_delete_inv st2); [|exact Q|exact E].
    eapply inv_set; eauto; now left.
  Qed.

  (** A resolver on top of the usages validator stops halfway: the updated link is deleted, then
      the update of the holder of the pair is refused because the holder is used. *)
  Lemma ur_over_us_halfway st q ch i j s t l : inv st -> real_pair cf s t -> linked I st i -> (forall k, ~ user I st i k) ->
    is_link I st j s t -> j <> i -> user I st j l -> l_index l <> i ->
    qget q 0 = Val i -> qget ch 1 = Val s -> qget ch 2 = Val t ->
    exists st' L, inv st' /\ no_link I st' i /\ frame I st st' i /\ (forall k, In k L <-> user I st' j k) /\
      forall H (h : whandler H) x, exists x',
        li_update (unique_resolver cf (usages_validator cf I)) H h q ch st x = Val (st', x', Err (HasUsages L)).
  Proof.
    intros IV (S0 & SA & TA) (s0 & t0 & LI) NU LJ JI U LNI Q1 Q2 Q3. pose proof IV as (K & D & CL).
    destruct (gs_delete_with cf I G GS st i s0 t0 K LI (distinct_separable _ _ _ D)) as (st1 & K1 & N1 & F1 & C1).
    assert (LJ1 : is_link I st1 j s t) by (now apply (link_frame _ _ _ _ _ _ _ F1 JI)).
    assert (U1 : user I st1 j l). { destruct U as (X & Y & Z). split; [|auto]. now rewrite F1. }
    destruct (if_unused_used cf I G GS st1 [j] j l K1 (link_linked _ _ _ _ LJ1) U1 eq_refl) as (L & IN & E).
    exists st1, L. split; [eapply inv_remove; eauto|]. split; auto. split; auto. split; auto.
    intros H h x. exists (fst (h x (mkLink i s0 t0) nothing)). cbn [unique_resolver li_update]. rewrite Q1, Q2, Q3. cbn [obind].
    change (d_search cf (usages_validator cf I) st s t) with (d_search cf I st s t).
    destruct (gs_search cf I G GS st s t K S0 SA TA) as [(_ & _ & X)|(k & X & _ & LK)]; [destruct (X j LJ)|].
    rewrite X. cbn [obind]. assert (k = j) as -> by (apply (D k j s t LK LJ); congruence).
    unfold then_ok. rewrite us_delete_with. rewrite (if_unused_free cf I G GS st [i] i _ _ _ _ K (link_linked _ _ _ _ LI) NU eq_refl).
    destruct (C1 H h x) as (o & ->). cbn [obind]. rewrite us_update_with, E. reflexivity.
  Qed.

  (** *** create_point *)
  Lemma cp_once (D : LinksI S) st st1 st2 n b :
    calls_once (fun H h x => li_create D H h [] st x) st1 nothing (mkLink n 0 0) ->
    calls_once (fun H h x => li_update D H h [n] [n; n; n] st1 x) st2 b (mkLink n n n) ->
    d_create_point D st = Val (st2, Ok n).
  Proof.
    intros C U. unfold d_create_point, d_create. rewrite (d_create_once _ _ _ _ _ _ _ C). cbn [obind].
    exact (du_once _ _ _ _ _ _ _ _ U).
  Qed.
  Lemma cp_fail (D : LinksI S) st st1 e :
    fails_with (fun H h x => li_create D H h [] st x) st1 e -> d_create_point D st = Val (st1, Err e).
  Proof.
    intros C. unfold d_create_point, d_create, d_create_by, d_create_by_with. rewrite C. reflexivity.
  Qed.
  Lemma point_created (D : LinksI S) st : li_create D = li_create I -> G st -> closed I st ->
    (forall st1 n, G st1 -> is_link I st1 n 0 0 -> (forall l, ~ user I st1 n l) ->
       (forall k, ~ is_link I st1 k n n) -> real_pair cf n n ->
       exists st2 b, G st2 /\ calls_once (fun H h x => li_update D H h [n] [n; n; n] st1 x) st2 b (mkLink n n n) /\
         is_link I st2 n n n /\ frame I st1 st2 n) ->
    not_created I st (d_create_point D st) \/
    exists st' n, G st' /\ adds cf I st st' n n n /\ d_create_point D st = Val (st', Ok n).
  Proof.
    intros EC K CL UP. apply (after_create D (fun st => d_create_point D st) st
      (fun st => exists st' n, G st' /\ adds cf I st st' n n n /\ d_create_point D st = Val (st', Ok n))); auto.
    { intros. now apply cp_fail. }
    intros st1 n K1 A C. pose proof A as (RG & N & L & F). pose proof (closed_unused _ _ _ CL A) as NU.
    destruct (gs_range cf I G GS st1 n K1 (link_linked _ _ _ _ L)) as [N0 NA].
    destruct (UP st1 n K1 L NU) as (st2 & b & K2 & C2 & L2 & F2).
    - intros k X. destruct (N.eq_dec k n) as [->|KN].
      + destruct (link_fun _ _ _ _ _ _ _ L X). congruence.
      + apply (NU (mkLink k n n)). split; [exact X|]. cbn. auto.
    - split; auto.
    - exists st2, n. split; auto. split; [eapply adds_set; eauto|]. exact (cp_once _ _ _ _ _ _ C C2).
  Qed.
End Stack.

(** ** Claims *)
(** * C73 The default methods on a decorated store *)
(** Through UniqueResolver, create_link, get_or_create and update return the link that holds the
    pair afterwards: the present holder, the others being left alone, or else the new or updated
    link.  create_point gives a new point if no link refers to a missing one. *)
Lemma L_C73_unique_resolver cf S (I : LinksI S) G st :
  good_store cf I G -> G st -> distinct_pairs I st ->
  let D := unique_resolver cf I in
  (forall j s t, real_pair cf s t -> is_link I st j s t ->
     (not_created I st (d_create_link D s t st) \/
      exists st', G st' /\ same_links I st st' /\ d_create_link D s t st = Val (st', Ok j)) /\
     d_get_or_create cf D s t st = Val (st, Ok j) /\
     (forall i, linked I st i -> i <> j ->
        exists st', G st' /\ no_link I st' i /\ frame I st st' i /\ d_update D i s t st = Val (st', Ok j))) /\
  (forall s t, real_pair cf s t -> (forall j, ~ is_link I st j s t) ->
     (not_created I st (d_create_link D s t st) \/
      exists st' n, G st' /\ adds cf I st st' n s t /\ d_create_link D s t st = Val (st', Ok n)) /\
     d_get_or_create cf D s t st = d_create_link D s t st /\
     (forall i, linked I st i ->
        exists st', G st' /\ is_link I st' i s t /\ frame I st st' i /\ d_update D i s t st = Val (st', Ok i))) /\
  (closed I st ->
     not_created I st (d_create_point D st) \/
     exists st' n, G st' /\ adds cf I st st' n n n /\ d_create_point D st = Val (st', Ok n)).
Proof.
  intros GS K DP D. split; [|split].
  - intros j s t RP LJ. split; [eapply ur_create_held; eauto|]. split.
    + unfold d_get_or_create. change (d_search cf D st s t) with (d_search cf I st s t). destruct RP as (S0 & SA & TA).
      destruct (gs_search cf I G GS st s t K S0 SA TA) as [(_ & _ & X)|(k & -> & _ & LK)]; [destruct (X j LJ)|].
      cbn [obind]. assert (k = j) as -> by (apply (DP k j s t LK LJ); congruence). reflexivity.
    + intros i (s0 & t0 & LI) NE.
      destruct (ur_other cf I G GS st [i] [i; s; t] i j s t s0 t0 K RP DP LJ (not_eq_sym NE) LI eq_refl eq_refl eq_refl) as (st' & b & K' & C & N & F).
      exists st'. split; auto. split; auto. split; auto. exact (du_twice _ _ _ _ _ _ _ _ _ _ C).
  - intros s t RP NH. split; [eapply ur_create_free; eauto|]. split.
    + unfold d_get_or_create. change (d_search cf D st s t) with (d_search cf I st s t). destruct RP as (S0 & SA & TA).
      destruct (gs_search cf I G GS st s t K S0 SA TA) as [(-> & _)|(k & _ & _ & LK)]; [reflexivity|destruct (NH k LK)].
    + intros i LI. destruct (ur_free cf I G GS st [i] [i; s; t] i s t K RP NH LI (distinct_separable _ _ _ DP) eq_refl eq_refl eq_refl) as (st' & b & K' & C & L & F).
      exists st'. split; auto. split; auto. split; auto. exact (du_once _ _ _ _ _ _ _ _ C).
  - intros CL. apply (point_created cf I G GS D st eq_refl K CL). intros st1 n K1 L NU NH RP.
    apply (ur_free cf I G GS st1 [n] [n; n; n] n n n K1 RP NH); auto; [now exists 0, 0|now left].
Qed.
(** Through UniqueValidator, the same for free pairs.  Missing: held pairs, next theorem. *)
Lemma L_C73_unique_validator_partial cf S (I : LinksI S) G st :
  good_store cf I G -> G st ->
  let D := unique_validator cf I in
  (forall s t, real_pair cf s t -> (forall j, ~ is_link I st j s t) ->
     (not_created I st (d_create_link D s t st) \/
      exists st' n, G st' /\ adds cf I st st' n s t /\ d_create_link D s t st = Val (st', Ok n)) /\
     d_get_or_create cf D s t st = d_create_link D s t st) /\
  (forall s t j, real_pair cf s t -> is_link I st j s t ->
     exists k, is_link I st k s t /\ d_get_or_create cf D s t st = Val (st, Ok k)) /\
  (closed I st ->
     not_created I st (d_create_point D st) \/
     exists st' n, G st' /\ adds cf I st st' n n n /\ d_create_point D st = Val (st', Ok n)).
Proof.
  intros GS K D. split; [|split].
  - intros s t RP NH. split; [eapply uv_create_free; eauto|].
    unfold d_get_or_create. change (d_search cf D st s t) with (d_search cf I st s t). destruct RP as (S0 & SA & TA).
    destruct (gs_search cf I G GS st s t K S0 SA TA) as [(-> & _)|(k & _ & _ & LK)]; [reflexivity|destruct (NH k LK)].
  - intros s t j (S0 & SA & TA) LJ. unfold d_get_or_create. change (d_search cf D st s t) with (d_search cf I st s t).
    destruct (gs_search cf I G GS st s t K S0 SA TA) as [(_ & _ & X)|(k & -> & _ & LK)]; [destruct (X j LJ)|].
    exists k. split; auto.
  - intros CL. apply (point_created cf I G GS D st eq_refl K CL). intros st1 n K1 L NU NH RP.
    destruct (gs_update cf I G GS st1 [n] [n; n; n] n n n K1) as (st2 & b & K2 & C & L2 & F2); auto; [now exists 0, 0|now left|].
    exists st2, b. split; auto. split; auto. intros H h x.
    unfold D. rewrite (uv_free cf I G GS st1 [n] [n; n; n] n n H h x K1 RP NH eq_refl eq_refl). apply C.
Qed.
(** Creating a link with a pair that is held already is refused, and leaves a new empty link. *)
Lemma L_C73_unique_validator_leak cf S (I : LinksI S) G st j s t :
  good_store cf I G -> G st -> real_pair cf s t -> is_link I st j s t ->
  let D := unique_validator cf I in
  not_created I st (d_create_link D s t st) \/
  exists st' n, G st' /\ adds cf I st st' n 0 0 /\ d_create_link D s t st = Val (st', Err (AlreadyExists s t)).
Proof. intros GS K RP LJ. eapply uv_create_held; eauto. Qed.
(** Through UsagesValidator, create_link and create_point give a new link if no link refers to
    a missing one. *)
Lemma L_C73_usages_validator cf S (I : LinksI S) G st :
  good_store cf I G -> G st -> closed I st ->
  let D := usages_validator cf I in
  (forall s t, not_created I st (d_create_link D s t st) \/
     exists st' n, G st' /\ adds cf I st st' n s t /\ d_create_link D s t st = Val (st', Ok n)) /\
  (not_created I st (d_create_point D st) \/
     exists st' n, G st' /\ adds cf I st st' n n n /\ d_create_point D st = Val (st', Ok n)).
Proof.
  intros GS K CL D. split; [intros s t; eapply us_create; eauto|].
  apply (point_created cf I G GS D st eq_refl K CL). intros st1 n K1 L NU NH RP.
  destruct (gs_update cf I G GS st1 [n] [n; n; n] n n n K1) as (st2 & b & K2 & C & L2 & F2); auto; [now exists 0, 0|now left|].
  exists st2, b. split; auto. split; auto. intros H h x. unfold D. cbn [usages_validator li_update].
  rewrite (if_unused_free cf I G GS st1 [n] n); auto. now exists 0, 0.
Qed.

(** Pairs with a null source are never found, so both unique decorators treat them as free,
    whichever links hold them: every create_link and get_or_create makes another link, and every
    update goes through. *)
Lemma gs_null_search cf S (I : LinksI S) G st t : good_store cf I G -> G st ->
  d_search cf I st 0 t = Val None /\ d_found I st [c_any cf; 0; t] = Val false.
Proof.
  intros (CF & DB & sp & R & OK & SPU & SPD & SPC & SPQ & GR) K. apply GR in K as (a & HR).
  assert (V : visits I st [c_any cf; 0; t] []) by (eapply (g_null cf CF sp I R OK SPQ); eauto; cbn; auto).
  unfold d_search. rewrite (d_find_ok _ _ _ _ V), (d_found_ok _ _ _ _ V). auto.
Qed.
Lemma L_C73_null_source cf S (I : LinksI S) G st t :
  good_store cf I G -> G st ->
  forall D, D = unique_resolver cf I \/ D = unique_validator cf I ->
  (not_created I st (d_create_link D 0 t st) \/
   exists st' n, G st' /\ adds cf I st st' n 0 t /\ d_create_link D 0 t st = Val (st', Ok n)) /\
  d_get_or_create cf D 0 t st = d_create_link D 0 t st /\
  (forall i, linked I st i -> separable I st i ->
     exists st', G st' /\ is_link I st' i 0 t /\ frame I st st' i /\ d_update D i 0 t st = Val (st', Ok i)).
Proof.
  intros GS K D DD.
  assert (UP : forall st1 i, G st1 -> linked I st1 i -> separable I st1 i ->
    exists st2 b, G st2 /\ is_link I st2 i 0 t /\ frame I st1 st2 i /\
      calls_once (fun H h x => li_update D H h [i] [i; 0; t] st1 x) st2 b (mkLink i 0 t)).
  { intros st1 i K1 L SEP. assert (Q1 : qget [i] 0 = Val i) by reflexivity.
    assert (Q2 : qget [i; 0; t] 1 = Val 0) by reflexivity. assert (Q3 : qget [i; 0; t] 2 = Val t) by reflexivity.
    destruct (gs_null_search cf S I G st1 t GS K1) as [E1 E2]. destruct DD as [-> | ->].
    - destruct (gs_update_with cf I G GS st1 i 0 t K1 L SEP) as (st2 & b & K2 & L2 & F & C).
      exists st2, b. split; auto. split; auto. split; auto. intros H h x. cbn [unique_resolver li_update]. rewrite Q1, Q2, Q3. cbn [obind].
      rewrite E1. cbn [obind]. apply C.
    - destruct (gs_update cf I G GS st1 [i] [i; 0; t] i 0 t K1 L SEP eq_refl eq_refl eq_refl) as (st2 & b & K2 & C & L2 & F).
      exists st2, b. split; auto. split; auto. split; auto. intros H h x. cbn [unique_validator li_update]. rewrite Q2, Q3. cbn [obind].
      rewrite E2. apply C. }
  assert (EC : li_create D = li_create I) by (destruct DD as [-> | ->]; reflexivity).
  split; [|split].
  - apply (after_create cf I G GS D (fun st => d_create_link D 0 t st) st
      (fun st => exists st' n, G st' /\ adds cf I st st' n 0 t /\ d_create_link D 0 t st = Val (st', Ok n))); auto.
    { intros. now apply cl_create_fail. }
    intros st1 n K1 A C. pose proof A as (_ & N & L & F).
    destruct (UP st1 n K1 (link_linked I st1 n 0 0 L) (or_introl L)) as (st2 & b & K2 & L2 & F2 & C2).
    exists st2, n. split; auto. split; [eapply adds_set; eauto|]. exact (cl_once _ _ _ _ _ _ _ _ _ C C2).
  - unfold d_get_or_create. assert (ES : d_search cf D st 0 t = d_search cf I st 0 t) by (destruct DD as [-> | ->]; reflexivity).
    rewrite ES, (proj1 (gs_null_search cf S I G st t GS K)). reflexivity.
  - intros i L SEP. destruct (UP st i K L SEP) as (st2 & b & K2 & L2 & F2 & C2).
    exists st2. split; auto. split; auto. split; auto. exact (du_once _ _ _ _ _ _ _ _ C2).
Qed.

Definition out_st2 {S A} (d : S) (o : out (S * A)) : S := match o with Val (st, _) => st | _ => d end.
(** 1: 1->1, 2: 1->2, 3: 2->1 *)
Lemma ex3_closed : closed ex_U (ex_st ex3).
Proof.
  destruct ex3_reach as (d & HH & DP & L1 & L2 & L3).
  intros i s t L. apply (ex_links ex3) in L; [|vmr|vmr]. vm_compute in L.
  assert (E : s = 1 /\ t = 1 \/ s = 1 /\ t = 2 \/ s = 2 /\ t = 1) by (intuition congruence).
  unfold present, linked. clear L. intuition (subst; eauto).
Qed.
Lemma L_C73_nonvacuous : exists st,
  good_store ex_cf ex_U (fun st => exists d, u_hist ex_cf ref_tree_ops ref_list_ops st d) /\
  (exists d, u_hist ex_cf ref_tree_ops ref_list_ops st d) /\ distinct_pairs ex_U st /\ closed ex_U st /\
  is_link ex_U st 2 1 2 /\ is_link ex_U st 3 2 1 /\ real_pair ex_cf 1 2 /\ (forall j, ~ is_link ex_U st j 2 2) /\
  (exists st', d_create_link (unique_resolver ex_cf ex_U) 1 2 st = Val (st', Ok 2) /\ no_link ex_U st' 4) /\
  (exists st', d_create_link (unique_resolver ex_cf ex_U) 2 2 st = Val (st', Ok 4) /\ is_link ex_U st' 4 2 2) /\
  (exists st', d_create_link (unique_validator ex_cf ex_U) 2 2 st = Val (st', Ok 4) /\ is_link ex_U st' 4 2 2) /\
  (exists st', d_create_link (usages_validator ex_cf ex_U) 2 2 st = Val (st', Ok 4) /\ is_link ex_U st' 4 2 2) /\
  (exists st', d_update (unique_resolver ex_cf ex_U) 3 1 2 st = Val (st', Ok 2) /\ no_link ex_U st' 3).
Proof.
  destruct ex3_reach as (d & HH & DP & L1 & L2 & L3). exists (ex_st ex3).
  split; [exact ex_good|]. split; [eauto|]. split; [exact DP|]. split; [exact ex3_closed|]. split; [exact L2|]. split; [exact L3|].
  split; [unfold real_pair; cbn; lia|]. split; [nolink ex3|].
  split; [exists (out_st2 (ex_st ex3) (d_create_link (unique_resolver ex_cf ex_U) 1 2 (ex_st ex3))); split; vmr|].
  split; [exists (out_st2 (ex_st ex3) (d_create_link (unique_resolver ex_cf ex_U) 2 2 (ex_st ex3))); split; vmr|].
  split; [exists (out_st2 (ex_st ex3) (d_create_link (unique_validator ex_cf ex_U) 2 2 (ex_st ex3))); split; vmr|].
  split; [exists (out_st2 (ex_st ex3) (d_create_link (usages_validator ex_cf ex_U) 2 2 (ex_st ex3))); split; vmr|].
  exists (out_st2 (ex_st ex3) (d_update (unique_resolver ex_cf ex_U) 3 1 2 (ex_st ex3))); split; vmr.
Qed.
(** A second and a third link with the pair (0, 2). *)
Lemma L_C73_null_source_nonvacuous : exists st,
  good_store ex_cf ex_U (fun st => exists d, u_hist ex_cf ref_tree_ops ref_list_ops st d) /\
  (exists d, u_hist ex_cf ref_tree_ops ref_list_ops st d) /\ is_link ex_U st 2 0 2 /\ linked ex_U st 1 /\ separable ex_U st 1 /\
  (exists st', d_create_link (unique_resolver ex_cf ex_U) 0 2 st = Val (st', Ok 3) /\ is_link ex_U st' 2 0 2 /\ is_link ex_U st' 3 0 2) /\
  (exists st', d_get_or_create ex_cf (unique_validator ex_cf ex_U) 0 2 st = Val (st', Ok 3) /\ is_link ex_U st' 2 0 2 /\ is_link ex_U st' 3 0 2).
Proof.
  pose (l := [Cr; Cr; Up 1 1 1; Up 2 0 2]). destruct (ex_reach l) as (d & HH & _); [vmr..|]. exists (ex_st l).
  split; [exact ex_good|]. split; [eauto|]. split; [vmr|]. split; [exists 1, 1; vmr|].
  split; [apply distinct_separable, ex_distinct; vmr|].
  split; [exists (out_st2 (ex_st l) (d_create_link (unique_resolver ex_cf ex_U) 0 2 (ex_st l))); split; [|split]; vmr|].
  exists (out_st2 (ex_st l) (d_get_or_create ex_cf (unique_validator ex_cf ex_U) 0 2 (ex_st l))); split; [|split]; vmr.
Qed.
(** Refused calls leave an empty link behind: a held pair with UniqueValidator, and a link that
    refers to the next index with UsagesValidator. *)
Lemma L_C73_refuted :
  (exists st d st', u_hist ex_cf ref_tree_ops ref_list_ops st d /\ distinct_pairs ex_U st /\ closed ex_U st /\
     is_link ex_U st 2 1 2 /\ no_link ex_U st 4 /\
     d_create_link (unique_validator ex_cf ex_U) 1 2 st = Val (st', Err (AlreadyExists 1 2)) /\ is_link ex_U st' 4 0 0) /\
  (exists st d st', u_hist ex_cf ref_tree_ops ref_list_ops st d /\ distinct_pairs ex_U st /\
     is_link ex_U st 1 1 2 /\ no_link ex_U st 2 /\
     d_create_link (usages_validator ex_cf ex_U) 1 1 st = Val (st', Err (HasUsages [mkLink 1 1 2])) /\ is_link ex_U st' 2 0 0).
Proof.
  split.
  - destruct ex3_reach as (d & HH & DP & L1 & L2 & L3).
    exists (ex_st ex3), d, (out_st2 (ex_st ex3) (d_create_link (unique_validator ex_cf ex_U) 1 2 (ex_st ex3))).
    split; [exact HH|]. split; [exact DP|]. split; [exact ex3_closed|]. split; [exact L2|]. split; [vmr|]. split; vmr.
  - pose (l := [Cr; Up 1 1 2]). destruct (ex_reach l) as (d & HH & _); [vmr..|].
    exists (ex_st l), d, (out_st2 (ex_st l) (d_create_link (usages_validator ex_cf ex_U) 1 1 (ex_st l))).
    split; [exact HH|]. split; [apply ex_distinct; vmr|]. split; [vmr|]. split; [vmr|]. split; vmr.
Qed.

(** * C74 Decorators on top of decorators *)
(** UsagesValidator together with one of the unique decorators, in either order: pairs stay
    distinct and no link refers to a missing one, whatever is created, deleted, and updated to
    pairs of present ends.  Missing: that a refused call changes nothing (next theorem). *)
Lemma L_C74_stacks_partial cf S (I : LinksI S) G st :
  good_store cf I G -> G st -> distinct_pairs I st -> closed I st ->
  keeps cf I (usages_validator cf (unique_validator cf I)) st /\
  keeps cf I (unique_validator cf (usages_validator cf I)) st /\
  keeps cf I (usages_validator cf (unique_resolver cf I)) st /\
  keeps cf I (unique_resolver cf (usages_validator cf I)) st.
Proof.
  intros GS K D CL. assert (IV : inv I G st) by (split; auto).
  split; [|split; [|split]].
  - eapply us_over_uv; eauto.
  - eapply uv_over_us; eauto.
  - eapply us_over_ur; eauto.
  - eapply ur_over_us; eauto.
Qed.
(** NonNullDeletionResolver on top of UsagesValidator: deletions keep both too, and a refused
    one changes nothing. *)
Lemma L_C74_non_null cf S (I : LinksI S) G st q i H (h : whandler H) x :
  good_store cf I G -> G st -> distinct_pairs I st -> closed I st -> qget q 0 = Val i ->
  exists st' x' r, li_delete (non_null_deletion_resolver cf (usages_validator cf I)) H h q st x = Val (st', x', r) /\
    distinct_pairs I st' /\ closed I st' /\
    match r with
    | Ok _ => no_link I st' i /\ frame I st st' i /\ forall l, ~ user I st i l
    | Err _ => st' = st /\ x' = x
    end.
Proof.
  intros GS K D CL Q. assert (IV : inv I G st) by (split; auto).
  destruct (unused_dec cf I G GS st q i K Q) as [(L & NU & F)|(e & F)].
  - destruct (gs_update cf I G GS st q [i; 0; 0] i 0 0 K L (distinct_separable _ _ _ D) Q eq_refl eq_refl) as (st2 & b & K2 & C & L2 & F2).
    assert (D2 : distinct_pairs I st2) by (eapply (dist_set I st st2 i 0 0); eauto).
    destruct (gs_delete cf I G GS st2 q i 0 0 K2 L2 (or_introl L2) Q) as (st3 & K3 & C3 & N3 & F3).
    assert (FR : frame I st st3 i) by (intros j J; now rewrite F3, F2).
    assert (IV3 : inv I G st3) by (eapply inv_remove; eauto).
    assert (NU2 : forall l, ~ user I st2 i l).
    { intros [j s t] (X & Y & Z). cbn [l_index] in *. rewrite F2 in X by auto. apply (NU (mkLink j s t)). split; auto. }
    destruct (wadapt (uw_of h) (x, None) b (mkLink i 0 0)) as [[x1 o] f] eqn:EW.
    exists st3, (fst (h x1 (mkLink i 0 0) nothing)), (Ok (snd (h x1 (mkLink i 0 0) nothing))).
    split; [|split; [apply IV3|split; [apply IV3|auto]]].
    cbn [non_null_deletion_resolver li_delete]. rewrite Q. cbn [obind]. unfold then_ok, d_update_by_with.
    cbn [usages_validator li_update li_delete]. rewrite F, (ok_null _ (proj1 GS)), C.
    rewrite EW. cbn [fst snd obind rmap].
    rewrite (if_unused_free cf I G GS st2 q i _ _ _ _ K2 (ex_intro _ 0 (ex_intro _ 0 L2)) NU2 Q), C3. reflexivity.
  - exists st, x, (Err e). split; auto. cbn [non_null_deletion_resolver li_delete]. rewrite Q. cbn [obind].
    unfold then_ok, d_update_by_with. cbn [usages_validator li_update]. rewrite F. reflexivity.
Qed.
(** UniqueResolver on top of UsagesValidator: the updated link is deleted, then the update of the
    holder of the pair is refused if the holder is used, so the call fails halfway. *)
Lemma L_C74_resolver_over_validator_halfway cf S (I : LinksI S) G st q ch i j s t l :
  good_store cf I G -> G st -> distinct_pairs I st -> closed I st -> real_pair cf s t ->
  linked I st i -> (forall k, ~ user I st i k) -> is_link I st j s t -> j <> i -> user I st j l -> l_index l <> i ->
  qget q 0 = Val i -> qget ch 1 = Val s -> qget ch 2 = Val t ->
  exists st' L, no_link I st' i /\ frame I st st' i /\ (forall k, In k L <-> user I st' j k) /\
    forall H (h : whandler H) x, exists x',
      li_update (unique_resolver cf (usages_validator cf I)) H h q ch st x = Val (st', x', Err (HasUsages L)).
Proof.
  intros GS K D CL RP LI NU LJ JI U LN Q1 Q2 Q3. assert (IV : inv I G st) by (split; auto).
  destruct (ur_over_us_halfway cf I G GS st q ch i j s t l IV RP LI NU LJ JI U LN Q1 Q2 Q3) as (st' & L & _ & A & B & C & E).
  exists st', L. auto.
Qed.
(** 1: 1->1, 2: 1->2, 3: 2->1 as above, through four stacks: a free pair of present ends, then the
    deletion of the unused link 3. *)
Lemma L_C74_nonvacuous : exists st,
  good_store ex_cf ex_U (fun st => exists d, u_hist ex_cf ref_tree_ops ref_list_ops st d) /\
  (exists d, u_hist ex_cf ref_tree_ops ref_list_ops st d) /\ distinct_pairs ex_U st /\ closed ex_U st /\
  forall D, In D [usages_validator ex_cf (unique_validator ex_cf ex_U); unique_validator ex_cf (usages_validator ex_cf ex_U);
                  usages_validator ex_cf (unique_resolver ex_cf ex_U); unique_resolver ex_cf (usages_validator ex_cf ex_U)] ->
    exists st1 st2, li_update D unit cont [3] [3; 2; 2] st tt = Val (st1, tt, Ok Continue) /\ is_link ex_U st1 3 2 2 /\
      li_delete D unit cont [2] st1 tt = Val (st1, tt, Err (HasUsages [mkLink 3 2 2; mkLink 3 2 2])) /\
      li_delete D unit cont [3] st1 tt = Val (st2, tt, Ok Continue) /\ no_link ex_U st2 3.
Proof.
  destruct ex3_reach as (d & HH & DP & L1 & L2 & L3). exists (ex_st ex3).
  split; [exact ex_good|]. split; [eauto|]. split; [exact DP|]. split; [exact ex3_closed|].
  intros D HD. cbn [In] in HD. set (st1 := out_st3 (ex_st ex3) (li_update ex_U unit cont [3] [3; 2; 2] (ex_st ex3) tt)).
  exists st1, (out_st3 st1 (li_delete ex_U unit cont [3] st1 tt)).
  destruct HD as [<-|[<-|[<-|[<-|[]]]]]; (split; [vmr|]; split; [vmr|]; split; [vmr|]; split; vmr).
Qed.
(** The same on a concrete store: 3 is gone although the call failed. *)
Lemma L_C74_refuted : exists st d st',
  u_hist ex_cf ref_tree_ops ref_list_ops st d /\ distinct_pairs ex_U st /\ closed ex_U st /\ is_link ex_U st 3 2 1 /\
  li_update (unique_resolver ex_cf (usages_validator ex_cf ex_U)) unit cont [3] [3; 1; 1] st tt =
    Val (st', tt, Err (HasUsages [mkLink 2 1 2])) /\
  no_link ex_U st' 3.
Proof.
  destruct ex3_reach as (d & HH & DP & L1 & L2 & L3).
  exists (ex_st ex3), d, (out_st3 (ex_st ex3) (li_update (unique_resolver ex_cf (usages_validator ex_cf ex_U)) unit cont [3] [3; 1; 1] (ex_st ex3) tt)).
  split; [exact HH|]. split; [exact DP|]. split; [exact ex3_closed|]. split; [exact L3|]. split; vmr.
Qed.
