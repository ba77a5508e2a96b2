(** Proofs of the claims about using a single-memory store after it was reopened from
    interrupted calls (C82). *)
From Coq Require Import NArith List Bool Lia Permutation.
From Verif Require Import Base Trees Lists TreeInv Spec Iface UnitModel UnitInv UnitOps UnitLinks
  Doublets DoubletsOK Obs Hist Claims TreeImpl UnitHist Crash CrashWrites CrashClaims Scars.
From Verif Require SplitInv.
Import ListNotations.
Open Scope N_scope.

(** What interruptions left behind: [lost i s t g] - slot [i] still holds s -> t, but no link [i]
    is shown; [g] tells whether the tree of targets still has it. *)
Definition lost_links := N -> N -> N -> bool -> Prop.

(** The points at which the link is shown but its target is in no tree of targets. *)
Definition stray_point (p : point) (os ot s t : N) : Prop :=
  match p with
  | After 2 => os = 0 /\ ot <> 0
  | BetweenFields => s = 0 /\ ot <> 0
  | After 3 => s = 0 /\ t <> 0
  | After 4 => t <> 0
  | After _ => False
  end.
(** The point at which a lost link is still in the tree of targets. *)
Definition listed_point (p : point) (ot : N) : bool :=
  match p with After 1 => negb (ot =? 0) | _ => false end.

Section Life.
  Variables (cf : cfg) (tops : tree_ops) (lops : list_ops).
  Notation U := (unit_links cf tops lops).

  (** The client changes or deletes only links that are in both trees, while no other link and
      no lost one still in the tree of targets has the same pair. *)
  Definition may_change (st : ust) (L : lost_links) (C : N -> Prop) (i : N) : Prop :=
    separable U st i /\ ~ C i /\ forall l s t, L l s t true -> ~ is_link U st i s t.
  (** Above every lost link below [i] something other than [i] remains. *)
  Definition covered (st : ust) (L : lost_links) (i : N) : Prop :=
    forall l s t g, L l s t g -> l < i -> exists k, l < k /\ k <> i /\ (linked U st k \/ exists x y b, L k x y b).
  (** The links lie below the size the memory is opened with. *)
  Definition in_step (st : ust) : Prop := h_alloc st < c_step cf.

  (** Stores in use: any calls, and any number of interrupted updates, creations and deletions,
      each followed by opening the memory again.  [C] are the links missing from the tree of
      targets. *)
  Inductive life : ust -> lost_links -> (N -> Prop) -> Prop :=
  | life_start st d : u_hist cf tops lops st d -> life st (fun _ _ _ _ => False) (fun _ => False)
  | life_create st L C H (h : whandler H) q x st' x' r : life st L C ->
      li_create U H h q st x = Val (st', x', r) -> life st' L C
  | life_update st L C i s t H (h : whandler H) x st' x' r : life st L C ->
      no_link U st i \/ may_change st L C i ->
      li_update U H h [i] [i; s; t] st x = Val (st', x', r) -> life st' L C
  | life_delete st L C i H (h : whandler H) x st' x' r : life st L C ->
      no_link U st i \/ may_change st L C i /\ covered st L i ->
      li_delete U H h [i] st x = Val (st', x', r) -> life st' L C
  | life_reopen st L C orc st' : life st L C -> in_step st ->
      u_open cf (u_persist st orc) = Val (Ok st') -> life st' L C
  | life_stop st L C i os ot s t p st1 orc st' : life st L C -> in_step st ->
      is_link U st i os ot -> may_change st L C i ->
      at_point tops st i os ot s t p st1 -> u_open cf (u_persist st1 orc) = Val (Ok st') ->
      life st'
        (fun j x y g => L j x y g \/ (j = i /\ detached_point p os s /\ (x, y) = stored p os ot s t /\ g = listed_point p ot))
        (fun j => C j \/ (j = i /\ stray_point p os ot s t))
  | life_stop_create st L C st1 orc st' : life st L C -> create_point cf lops st st1 -> in_step st1 ->
      u_open cf (u_persist st1 orc) = Val (Ok st') -> life st' L C
  | life_stop_delete st L C i os ot p st1 orc st' : life st L C ->
      is_link U st i os ot -> may_change st L C i -> covered st L i ->
      delete_at tops lops st i os ot p st1 -> in_step st1 ->
      u_open cf (u_persist st1 orc) = Val (Ok st') -> life st' L C.
End Life.

Section P.
  Variables (cf : cfg) (tops : tree_ops) (lops : list_ops).
  Hypothesis ENV : unit_env cf tops lops.
  Notation U := (unit_links cf tops lops).

  Definition linv (st : ust) (L : lost_links) (C : N -> Prop) (a : astate) (P Q : N -> Prop) : Prop :=
    winv cf st a P Q /\
    (forall i s t g, L i s t g <-> a_map a i = Some (s, t) /\ gone a P i /\ (g = true <-> Q i)) /\
    (forall i, C i <-> ~ gone a P i /\ astray a Q i).

  Lemma v_link st L C a P Q i s t : linv st L C a P Q ->
    (is_link U st i s t <-> a_map a i = Some (s, t) /\ ~ gone a P i).
  Proof.
    intros ([R W] & _). unfold is_link. cbn [li_get unit_links]. rewrite (w_get cf tops lops ENV _ _ _ _ i R).
    rewrite <- (shown_some cf _ _ _ _ _ _ _ R). destruct (shown st a i) as [[x y]|]; cbn [olink].
    - split; intros E; congruence.
    - split; discriminate.
  Qed.
  Lemma v_none st L C a P Q i : linv st L C a P Q -> (no_link U st i <-> a_map a i = None \/ gone a P i).
  Proof.
    intros ([R W] & _). unfold no_link. cbn [li_get unit_links]. rewrite (w_get cf tops lops ENV _ _ _ _ i R).
    rewrite <- (shown_none cf _ _ _ _ _ R). destruct (shown st a i) as [[x y]|]; cbn [olink].
    - split; intros E; congruence.
    - tauto.
  Qed.
  Lemma v_dec st L C a P Q i : linv st L C a P Q ->
    (exists s t, is_link U st i s t) \/ (exists s t g, L i s t g) \/ a_map a i = None.
  Proof.
    intros K. pose proof K as ([R W] & LL & _). destruct (shown st a i) as [[s t]|] eqn:E.
    - left. exists s, t. apply (v_link _ _ _ _ _ _ _ _ _ K). now apply (shown_some cf _ _ _ _ _ _ _ R).
    - right. apply (shown_none cf _ _ _ _ _ R) in E as [E|E]; auto. left.
      pose proof E as [(s & t & M & _) _]. assert (I1 : 1 <= i) by (apply (w_range cf _ _ _ _ i R); congruence).
      destruct (w_inQ cf _ _ _ _ i R I1) as [[_ NQ]|[_ YQ]].
      + exists s, t, false. apply LL. split; [exact M|]. split; [exact E|]. split; [discriminate|contradiction].
      + exists s, t, true. apply LL. split; [exact M|]. split; [exact E|]. tauto.
  Qed.
  Lemma v_lost st L C a P Q i : linv st L C a P Q -> (gone a P i <-> exists s t g, L i s t g).
  Proof.
    intros K. pose proof K as ([R W] & LL & _). split.
    - intros G. destruct (v_dec _ _ _ _ _ _ i K) as [(s & t & V)|[V|V]]; auto.
      + apply (v_link _ _ _ _ _ _ _ _ _ K) in V. tauto.
      + destruct G as [G _]. apply psrc_dom in G. congruence.
    - intros (s & t & g & V). apply LL in V. tauto.
  Qed.
  Lemma v_dom st L C a P Q i : linv st L C a P Q ->
    (a_map a i <> None <-> linked U st i \/ exists s t g, L i s t g).
  Proof.
    intros K. split.
    - intros M. destruct (v_dec _ _ _ _ _ _ i K) as [V|[V|V]]; auto. contradiction.
    - intros [(s & t & V)|(s & t & g & V)].
      + apply (v_link _ _ _ _ _ _ _ _ _ K) in V. destruct V; congruence.
      + apply K in V. destruct V; congruence.
  Qed.
  Lemma v_top st L C a P Q : linv st L C a P Q -> in_step cf st -> a_top a < c_step cf.
  Proof. intros ([R _] & _) LT. unfold in_step in LT. now rewrite (wr_alloc _ _ _ _ _ R) in LT. Qed.
  Lemma v_change st L C a P Q i os ot : linv st L C a P Q -> may_change cf tops lops st L C i -> is_link U st i os ot ->
    a_map a i = Some (os, ot) /\ sound a P Q i /\ lone a P Q i.
  Proof.
    intros K (SE & NC & NG) LI. pose proof K as ([R W] & LL & CC). apply (v_link _ _ _ _ _ _ _ _ _ K) in LI as [M NGO].
    split; [exact M|]. split.
    - split; auto. intros A. apply NC. apply CC. auto.
    - destruct SE as [SE|SE].
      + left. apply (v_link _ _ _ _ _ _ _ _ _ K) in SE. apply SE.
      + right. intros j [x y] N MI MJ.
        destruct (v_dec _ _ _ _ _ _ j K) as [(s & t & V)|[(s & t & g & V)|V]]; [| |congruence].
        * pose proof V as V'. apply (v_link _ _ _ _ _ _ _ _ _ K) in V' as [V' _]. rewrite MJ in V'. injection V' as <- <-.
          apply (SE j x y); auto. apply (v_link _ _ _ _ _ _ _ _ _ K). auto.
        * exfalso. pose proof V as V'. apply LL in V' as (V1 & V2 & V3). rewrite MJ in V1. injection V1 as <- <-.
          assert (G : g = true) by (apply V3; destruct N as [N|N]; auto; exfalso; apply V2; exact N). subst g.
          apply (NG j x y V). apply (v_link _ _ _ _ _ _ _ _ _ K). auto.
  Qed.

  (** ** The operations keep the invariant *)
  Lemma gone_put a P i (b : Prop) x y j : (gone (a_update a i x y) (put P i b) j <-> (j <> i /\ gone a P j) \/ (j = i /\ x <> 0 /\ ~ b)).
  Proof.
    unfold gone, psrc, put. cbn [a_map a_update]. destruct (N.eq_dec j i) as [->|NE].
    - rewrite upd_same. split.
      + intros [(u & v & E & N) K]. injection E as <- <-. right. tauto.
      + intros [[K _]|(_ & K1 & K2)]; [congruence|]. split; [exists x, y; auto|]. tauto.
    - rewrite upd_other by auto. tauto.
  Qed.
  Lemma astray_put a Q i (b : Prop) x y j : (astray (a_update a i x y) (put Q i b) j <-> (j <> i /\ astray a Q j) \/ (j = i /\ y <> 0 /\ ~ b)).
  Proof.
    unfold astray, ptgt, put. cbn [a_map a_update]. destruct (N.eq_dec j i) as [->|NE].
    - rewrite upd_same. split.
      + intros [(u & v & E & N) K]. injection E as <- <-. right. tauto.
      + intros [[K _]|(_ & K1 & K2)]; [congruence|]. split; [exists x, y; auto|]. tauto.
    - rewrite upd_other by auto. tauto.
  Qed.
  Lemma next_none a : aset a -> a_map a (a_next a) = None /\ 1 <= a_next a.
  Proof.
    intros W. unfold a_next. destruct (a_free a) as [|y l] eqn:EF; [split; [apply aset_none; auto; left; lia|lia]|].
    assert (IF : In y (a_free a)) by (rewrite EF; now left). pose proof (as_free _ W _ IF). split; [|lia]. apply aset_none; auto.
  Qed.
  Lemma create_map a j : a_map (a_create a) j = if j =? a_next a then Some (0, 0) else a_map a j.
  Proof. unfold a_create, a_next. destruct (a_free a); reflexivity. Qed.
  Lemma delete_map a i j : a_map (a_delete a i) j = if j =? i then None else a_map a j.
  Proof. unfold a_delete. destruct (i <? a_top a); reflexivity. Qed.

  Lemma inv_create st st' L C a P Q : linv st L C a P Q -> winv cf st' (a_create a) P Q -> linv st' L C (a_create a) P Q.
  Proof.
    intros K K'. pose proof K as ([R W] & LL & CC). destruct (next_none a W) as [NN _].
    assert (G : forall j, gone (a_create a) P j <-> gone a P j).
    { intros j. unfold gone, psrc. rewrite create_map. destruct (N.eqb_spec j (a_next a)) as [->|]; [|tauto].
      rewrite NN. split; intros [(x & y & E & N) _]; congruence. }
    assert (A : forall j, astray (a_create a) Q j <-> astray a Q j).
    { intros j. unfold astray, ptgt. rewrite create_map. destruct (N.eqb_spec j (a_next a)) as [->|]; [|tauto].
      rewrite NN. split; intros [(x & y & E & N) _]; congruence. }
    split; [exact K'|]. split.
    - intros i s t g. rewrite G, create_map, LL. destruct (N.eqb_spec i (a_next a)) as [->|]; [|tauto].
      rewrite NN. split; [intros [E _]; discriminate|]. intros (_ & [(x & y & E & _) _] & _). congruence.
    - intros i. rewrite G, A. apply CC.
  Qed.
  Lemma inv_put st st' L C a P Q i s t : linv st L C a P Q -> sound a P Q i -> a_map a i <> None ->
    winv cf st' (a_update a i s t) (put P i (s <> 0)) (put Q i (t <> 0)) ->
    linv st' L C (a_update a i s t) (put P i (s <> 0)) (put Q i (t <> 0)).
  Proof.
    intros K [SG SA] M K'. pose proof K as ([R W] & LL & CC). split; [exact K'|].
    assert (G : forall j, gone (a_update a i s t) (put P i (s <> 0)) j <-> gone a P j).
    { intros j. rewrite gone_put. split; [intros [K1|K1]; tauto|]. intros K1. left. split; auto. intros ->; auto. }
    assert (A : forall j, astray (a_update a i s t) (put Q i (t <> 0)) j <-> astray a Q j).
    { intros j. rewrite astray_put. split; [intros [K1|K1]; tauto|]. intros K1. left. split; auto. intros ->; auto. }
    split.
    - intros j x y g. rewrite G, LL. cbn [a_map a_update]. destruct (N.eq_dec j i) as [->|NE]; [tauto|].
      rewrite upd_other by auto. unfold put. tauto.
    - intros j. rewrite G, A. apply CC.
  Qed.
  Lemma inv_delete st st' L C a P Q i : linv st L C a P Q -> sound a P Q i -> a_map a i <> None ->
    winv cf st' (a_delete a i) (put P i False) (put Q i False) -> linv st' L C (a_delete a i) (put P i False) (put Q i False).
  Proof.
    intros K [SG SA] M K'. pose proof K as ([R W] & LL & CC). split; [exact K'|].
    assert (G : forall j, gone (a_delete a i) (put P i False) j <-> gone a P j).
    { intros j. unfold gone, psrc, put. rewrite delete_map. destruct (N.eqb_spec j i) as [->|NE].
      - split; [intros [(x & y & E & _) _]; discriminate|]. intros K1. exfalso. apply SG. exact K1.
      - tauto. }
    assert (A : forall j, astray (a_delete a i) (put Q i False) j <-> astray a Q j).
    { intros j. unfold astray, ptgt, put. rewrite delete_map. destruct (N.eqb_spec j i) as [->|NE].
      - split; [intros [(x & y & E & _) _]; discriminate|]. intros K1. exfalso. apply SA. exact K1.
      - tauto. }
    split.
    - intros j x y g. rewrite G, LL, delete_map. destruct (N.eqb_spec j i) as [->|NE]; [tauto|]. unfold put. tauto.
    - intros j. rewrite G, A. apply CC.
  Qed.
  (** A link removed or emptied, and possibly a free slot shown as an empty link. *)
  Lemma inv_drop st st' L C a P Q i a1 : linv st L C a P Q -> sound a P Q i ->
    winv cf st' a1 (put P i False) (put Q i False) -> (a_map a1 i = None \/ a_map a1 i = Some (0, 0)) ->
    (forall j, j <> i -> a_map a1 j = a_map a j \/ (a_map a j = None /\ a_map a1 j = Some (0, 0))) ->
    linv st' L C a1 (put P i False) (put Q i False).
  Proof.
    intros K [SG SA] K' MI MJ. pose proof K as ([R W] & LL & CC). split; [exact K'|].
    assert (G : forall j, gone a1 (put P i False) j <-> gone a P j).
    { intros j. unfold gone, psrc, put. destruct (N.eq_dec j i) as [->|NE].
      - split; [intros [(x & y & E & N) _]; destruct MI as [MI|MI]; congruence|]. intros K1. exfalso. apply SG. exact K1.
      - destruct (MJ j NE) as [->|[E1 E2]]; [tauto|]. rewrite E1, E2. split; intros [(x & y & E & N) _]; congruence. }
    assert (A : forall j, astray a1 (put Q i False) j <-> astray a Q j).
    { intros j. unfold astray, ptgt, put. destruct (N.eq_dec j i) as [->|NE].
      - split; [intros [(x & y & E & N) _]; destruct MI as [MI|MI]; congruence|]. intros K1. exfalso. apply SA. exact K1.
      - destruct (MJ j NE) as [->|[E1 E2]]; [tauto|]. rewrite E1, E2. split; intros [(x & y & E & N) _]; congruence. }
    split.
    - intros j x y g. rewrite G, LL. destruct (N.eq_dec j i) as [->|NE]; [tauto|].
      destruct (MJ j NE) as [->|[E1 E2]]; [unfold put; tauto|]. rewrite E1, E2. split; [intros [E _]; congruence|].
      intros (_ & [(u & v & E & _) _] & _). congruence.
    - intros j. rewrite G, A. apply CC.
  Qed.
  Lemma detached_iff p os ot s t : detached_point p os s <-> fst (stored p os ot s t) <> 0 /\ ~ in_src p os s.
  Proof. destruct p as [k|]; cbn; [do 4 (destruct k as [|k]; [cbn; tauto|])|]; cbn; tauto. Qed.
  Lemma stray_iff p os ot s t : stray_point p os ot s t <-> snd (stored p os ot s t) <> 0 /\ ~ in_tgt p ot t /\ ~ detached_point p os s.
  Proof.
    pose proof (N.eq_dec os 0). pose proof (N.eq_dec s 0).
    destruct p as [k|]; cbn; [do 5 (destruct k as [|k]; [cbn; tauto|])|]; cbn; tauto.
  Qed.
  Lemma listed_iff p os ot s t : detached_point p os s -> (listed_point p ot = true <-> in_tgt p ot t).
  Proof.
    destruct p as [k|]; cbn; [do 4 (destruct k as [|k]; [cbn; try tauto; rewrite ?neqb0; intros; split; (tauto || discriminate)|])|]; cbn; try tauto.
    intros. split; [discriminate|tauto].
  Qed.
  Lemma inv_stop st st' L C a P Q i os ot s t p : linv st L C a P Q -> sound a P Q i -> a_map a i = Some (os, ot) ->
    winv cf st' (a_update a i (fst (stored p os ot s t)) (snd (stored p os ot s t))) (put P i (in_src p os s)) (put Q i (in_tgt p ot t)) ->
    linv st'
      (fun j x y g => L j x y g \/ (j = i /\ detached_point p os s /\ (x, y) = stored p os ot s t /\ g = listed_point p ot))
      (fun j => C j \/ (j = i /\ stray_point p os ot s t))
      (a_update a i (fst (stored p os ot s t)) (snd (stored p os ot s t))) (put P i (in_src p os s)) (put Q i (in_tgt p ot t)).
  Proof.
    intros K [SG SA] M K'. pose proof K as ([R W] & LL & CC). split; [exact K'|]. split.
    - intros j x y g. rewrite gone_put, LL, <- detached_iff. cbn [a_map a_update]. destruct (N.eq_dec j i) as [->|NE].
      + rewrite upd_same. split.
        * intros [K1|(_ & D & E & ->)]; [tauto|]. rewrite <- E. cbn [fst snd]. split; auto. split; [right; auto|].
          rewrite (listed_iff p os ot s t D). unfold put. tauto.
        * intros (E & [K1|K1] & G); [tauto|]. right. split; auto. split; [tauto|]. split.
          -- destruct (stored p os ot s t); cbn [fst snd] in E. congruence.
          -- assert (D : detached_point p os s) by tauto. pose proof (listed_iff p os ot s t D) as X.
             assert (Y : in_tgt p ot t <-> put Q i (in_tgt p ot t) i) by (unfold put; tauto).
             destruct g, (listed_point p ot); auto; exfalso.
             ++ assert (false = true) by (apply X, Y, G; reflexivity). discriminate.
             ++ assert (false = true) by (apply G, Y, X; reflexivity). discriminate.
      + rewrite upd_other by auto. unfold put. split.
        * intros [K1|K1]; [|tauto]. tauto.
        * intros (K1 & [K2|K2] & G); [left|tauto]. tauto.
    - intros j. rewrite CC, gone_put, astray_put, <- detached_iff, stray_iff. destruct (N.eq_dec j i) as [->|NE]; tauto.
  Qed.

  Lemma inv_created st L C a P Q H (h : whandler H) q x st' x' r : linv st L C a P Q ->
    li_create U H h q st x = Val (st', x', r) -> exists a' P' Q', linv st' L C a' P' Q'.
  Proof.
    intros K E. pose proof K as (K0 & LL & CC). cbn [li_create unit_links] in E.
    destruct (w_create cf tops lops ENV st a P Q q K0) as [(_ & _ & _ & _ & F)|[[_ F]|[(_ & _ & _ & K1 & F)|(_ & st2 & K1 & F)]]].
    - rewrite F in E. discriminate.
    - rewrite F in E. injection E as <- _ _. eauto.
    - rewrite F in E. injection E as <- _ _. exists a, P, Q. split; [exact K1|]. auto.
    - rewrite F in E. injection E as <- _ _. eexists _, _, _. eapply inv_create; eauto.
  Qed.
  Lemma inv_cells st1 st L C a P Q orc st' : linv st L C a P Q -> same_cells st1 st -> in_step cf st1 ->
    u_open cf (u_persist st1 orc) = Val (Ok st') -> linv st' L C a P Q.
  Proof.
    intros K SC LT E. pose proof K as (K0 & LL & CC). split; [|auto]. eapply w_reopen_cells; eauto.
    pose proof K0 as [R _]. destruct SC as (_ & S2 & _). unfold in_step in LT. now rewrite S2, (wr_alloc _ _ _ _ _ R) in LT.
  Qed.
  Lemma covered_map st L C a P Q i : linv st L C a P Q -> covered cf tops lops st L i ->
    forall l, gone a P l -> l < i -> exists k, l < k /\ k <> i /\ a_map a k <> None.
  Proof.
    intros K CV l G LT. apply (v_lost _ _ _ _ _ _ _ K) in G as (s & t & g & G).
    destruct (CV _ _ _ _ G LT) as (k & K1 & K2 & K3). exists k. split; auto. split; auto. now apply (v_dom _ _ _ _ _ _ _ K).
  Qed.
  Lemma alloc_cells st n st1 : u_alloc_mem st n = Some st1 -> same_cells st1 st.
  Proof. unfold u_alloc_mem. destruct (u_orc st 0%nat n); [|discriminate]. intros E; injection E as <-. repeat split; auto. Qed.

  Lemma life_inv st L C : life cf tops lops st L C -> exists a P Q, linv st L C a P Q.
  Proof.
    intros HL. induction HL as [st d HH|st L C H h q x st' x' r _ IH E|st L C i s t H h x st' x' r _ IH MC E|
      st L C i H h x st' x' r _ IH MC E|st L C orc st' _ IH LT E|st L C i os ot s t p st1 orc st' _ IH LT LI MC E1 E2|
      st L C st1 orc st' _ IH PT LT E2|st L C i os ot p st1 orc st' _ IH LI MC CV PT LT E2].
    - destruct (u_hist_inv cf tops lops ENV st d HH) as (a & [R W] & _). exists a, (psrc a), (ptgt a).
      split; [split; [now apply urep_wrep|now apply awf_aset]|]. split.
      + intros i s t g. unfold gone. tauto.
      + intros i. unfold gone, astray. tauto.
    - destruct IH as (a & P & Q & K). eapply inv_created; eauto.
    - destruct IH as (a & P & Q & K). pose proof K as (K0 & _). cbn [li_update unit_links] in E.
      destruct MC as [N|MC].
      { apply (v_none _ _ _ _ _ _ _ K) in N. rewrite (w_update_none cf tops lops ENV _ _ _ _ _ s t K0 N) in E. injection E as <- _ _. eauto. }
      destruct (v_dec _ _ _ _ _ _ i K) as [(os & ot & V)|V].
      + destruct (v_change _ _ _ _ _ _ _ _ _ K MC V) as (M & SO & LO).
        destruct (w_update cf tops lops ENV _ _ _ _ _ _ _ s t K0 M SO LO) as (st2 & K2 & F).
        rewrite F in E. injection E as <- _ _. eexists _, _, _. eapply inv_put; eauto. congruence.
      + assert (N : a_map a i = None \/ gone a P i).
        { destruct V as [V|V]; auto. right. now apply (v_lost _ _ _ _ _ _ _ K). }
        rewrite (w_update_none cf tops lops ENV _ _ _ _ _ s t K0 N) in E. injection E as <- _ _. eauto.
    - destruct IH as (a & P & Q & K). pose proof K as (K0 & _). cbn [li_delete unit_links] in E.
      destruct MC as [N|[MC CV]].
      { apply (v_none _ _ _ _ _ _ _ K) in N. rewrite (w_delete_none cf tops lops ENV _ _ _ _ _ K0 N) in E. injection E as <- _ _. eauto. }
      destruct (v_dec _ _ _ _ _ _ i K) as [(os & ot & V)|V].
      + destruct (v_change _ _ _ _ _ _ _ _ _ K MC V) as (M & SO & LO).
        destruct (w_delete cf tops lops ENV _ _ _ _ _ _ _ K0 M SO LO) as (st2 & K2 & F).
        { intros l G LT. apply (v_lost _ _ _ _ _ _ _ K) in G as (s & t & g & G).
          destruct (CV _ _ _ _ G LT) as (k & K1 & K2 & K3). exists k. split; auto. split; auto. now apply (v_dom _ _ _ _ _ _ _ K). }
        rewrite F in E. injection E as <- _ _. eexists _, _, _. eapply inv_delete; eauto. congruence.
      + assert (N : a_map a i = None \/ gone a P i).
        { destruct V as [V|V]; auto. right. now apply (v_lost _ _ _ _ _ _ _ K). }
        rewrite (w_delete_none cf tops lops ENV _ _ _ _ _ K0 N) in E. injection E as <- _ _. eauto.
    - destruct IH as (a & P & Q & K). pose proof K as (K0 & LL & CC). exists a, P, Q. split; [|auto].
      eapply w_reopen; eauto. eapply v_top; eauto.
    - destruct IH as (a & P & Q & K). pose proof K as (K0 & LL & CC).
      destruct (v_change _ _ _ _ _ _ _ _ _ K MC LI) as (M & SO & LO).
      destruct (w_point cf tops lops ENV _ _ _ _ _ _ _ s t p (proj1 K0) M SO LO) as (st2 & E3 & R3).
      pose proof (at_point_det tops _ _ _ _ _ _ _ _ _ E1 E3) as ->.
      eexists _, _, _. eapply inv_stop; eauto.
      eapply w_reopen; [exact ENV| | |exact E2].
      + split; [exact R3|]. apply aset_update; [apply K0|congruence].
      + exact (v_top _ _ _ _ _ _ K LT).
    - destruct IH as (a & P & Q & K). destruct PT as [|st1 G|st1 r G|H h q x st1 x1 r G].
      + exists a, P, Q. eapply inv_cells; eauto. apply same_cells_refl.
      + exists a, P, Q. eapply inv_cells; eauto. exact (alloc_cells _ _ _ G).
      + exists a, P, Q. eapply inv_cells; eauto. exact (grow_cells cf _ _ _ G).
      + destruct (inv_created _ _ _ _ _ _ H h q x st1 x1 r K G) as (a' & P' & Q' & K').
        exists a', P', Q'. eapply inv_cells; eauto. apply same_cells_refl.
    - destruct IH as (a & P & Q & K). pose proof K as (K0 & _).
      destruct (v_change _ _ _ _ _ _ _ _ _ K MC LI) as (M & SO & LO).
      destruct (w_delete_at cf tops lops ENV _ _ _ _ _ _ _ _ _ K0 M SO LO (covered_map _ _ _ _ _ _ _ K CV) PT) as (a1 & K1 & _ & S).
      exists a1, (put P i False), (put Q i False).
      assert (K2 : linv st1 L C a1 (put P i False) (put Q i False)).
      { eapply inv_drop; eauto.
        - destruct p; [tauto..|]. destruct S as (k & S). tauto.
        - intros j J. destruct p; [left; now apply S..|]. destruct S as (k & S1 & S2 & S3 & S4 & S5).
          destruct (N.eq_dec j k) as [->|]; auto. }
      eapply inv_cells; eauto. apply same_cells_refl.
  Qed.

  Lemma v_get st L C a P Q j : linv st L C a P Q -> li_get U st j = Val (olink j (shown st a j)).
  Proof. intros ([R W] & _). cbn [li_get unit_links]. exact (w_get cf tops lops ENV _ _ _ _ j R). Qed.
  Lemma v_same st st' L C a P Q L' C' a' P' Q' j : linv st L C a P Q -> linv st' L' C' a' P' Q' ->
    a_map a' j = a_map a j -> (gone a' P' j <-> gone a P j) -> li_get U st' j = li_get U st j.
  Proof.
    intros K K' M G. rewrite (v_get _ _ _ _ _ _ j K), (v_get _ _ _ _ _ _ j K'). do 2 f_equal.
    destruct K as ([R W] & _), K' as ([R' W'] & _).
    destruct (shown st a j) as [[s t]|] eqn:E.
    - apply (shown_some cf _ _ _ _ _ _ _ R) in E as [E1 E2]. apply (shown_some cf _ _ _ _ _ _ _ R'). rewrite M, G. auto.
    - apply (shown_none cf _ _ _ _ _ R) in E. apply (shown_none cf _ _ _ _ _ R'). now rewrite M, G.
  Qed.
End P.

(** * C82 *)
(** An interrupted update can always be continued from by opening the memory again. *)
Lemma L_C82_points_exist cf tops lops st L C i os ot s t p orc :
  let U := unit_links cf tops lops in
  unit_env cf tops lops -> life cf tops lops st L C -> in_step cf st ->
  is_link U st i os ot -> may_change cf tops lops st L C i ->
  c_step cf - 1 <= c_tmax cf -> orc 0%nat (c_page cf) = true -> orc 1%nat (c_step cf) = true ->
  exists st1 st2, at_point tops st i os ot s t p st1 /\ u_open cf (u_persist st1 orc) = Val (Ok st2).
Proof.
  intros U ENV HL LT LI MC TM O1 O2. destruct (life_inv cf tops lops ENV st L C HL) as (a & P & Q & K).
  pose proof K as (K0 & _). destruct (v_change cf tops lops ENV _ _ _ _ _ _ _ _ _ K MC LI) as (M & SO & LO).
  destruct (w_point cf tops lops ENV _ _ _ _ _ _ _ s t p (proj1 K0) M SO LO) as (st1 & E & R).
  pose proof (v_top cf _ _ _ _ _ _ K LT) as TL.
  exists st1. unfold u_open, u_alloc_mem. cbn [u_orc u_persist]. rewrite O1. pose proof (ok_page _ (e_cf _ _ _ ENV)). pose proof (ok_step _ (e_cf _ _ _ ENV)).
  unfold u_header at 1. cbn [u_len]. destruct (N.ltb_spec 0 (c_page cf)); [|lia]. cbn [obind u_orc].
  change (h_alloc (mkU (c_page cf) (fun k => orc (S k)) (u_data st1) (u_src st1) (u_tgt st1))) with (h_alloc st1).
  cbn [u_data u_src u_tgt u_persist].
  change (h_alloc (mkU (c_page cf) (fun k => orc (S k)) (u_data st1) (u_src st1) (u_tgt st1))) with (h_alloc st1).
  rewrite (wr_alloc _ _ _ _ _ R). cbn [a_top a_update]. rewrite N.max_l by lia. rewrite O2.
  unfold u_header. cbn [u_len]. destruct (N.ltb_spec 0 (c_step cf)); [|lia]. cbn [obind].
  rewrite csub_ok by lia. cbn [obind]. rewrite ctry_ok by lia. cbn [obind]. eexists. split; [exact E|reflexivity].
Qed.
(** A lost link stays lost: it cannot be read, changed or deleted. *)
Lemma L_C82_lost cf tops lops st L C i s t g :
  let U := unit_links cf tops lops in
  unit_env cf tops lops -> life cf tops lops st L C -> L i s t g ->
  no_link U st i /\
  (forall x y H (h : whandler H) z, li_update U H h [i] [i; x; y] st z = Val (st, z, Err (NotExists i))) /\
  (forall H (h : whandler H) z, li_delete U H h [i] st z = Val (st, z, Err (NotExists i))).
Proof.
  intros U ENV HL LO. destruct (life_inv cf tops lops ENV st L C HL) as (a & P & Q & K).
  assert (G : a_map a i = None \/ gone a P i) by (right; apply (v_lost cf tops lops ENV _ _ _ _ _ _ _ K); eauto).
  split; [now apply (v_none cf tops lops ENV _ _ _ _ _ _ _ K)|]. split.
  - intros x y H h z. exact (w_update_none cf tops lops ENV _ _ _ _ _ x y (proj1 K) G H h z).
  - intros H h z. exact (w_delete_none cf tops lops ENV _ _ _ _ _ (proj1 K) G H h z).
Qed.
(** A creation takes an index that neither a link nor a lost link has. *)
Lemma L_C82_create cf tops lops st L C q :
  let U := unit_links cf tops lops in
  unit_env cf tops lops -> cfg_room cf -> life cf tops lops st L C ->
  ((forall i, 1 <= i <= c_iend cf -> linked U st i \/ exists s t g, L i s t g) /\
     fails_with (fun H h x => li_create U H h q st x) st (LimitReached (c_iend cf))) \/
  (exists st', same_links U st st' /\ life cf tops lops st' L C /\ fails_with (fun H h x => li_create U H h q st x) st' AllocFailed) \/
  (exists st' i, creates cf U st st' i /\ (forall s t g, ~ L i s t g) /\ life cf tops lops st' L C /\
     calls_once (fun H h x => li_create U H h q st x) st' nothing (mkLink i 0 0)).
Proof.
  intros U ENV RM HL. destruct (life_inv cf tops lops ENV st L C HL) as (a & P & Q & K). pose proof K as (K0 & LL & CC).
  pose proof K0 as [R W]. pose proof (wr_iend _ _ _ _ _ R) as IE.
  destruct (w_create cf tops lops ENV st a P Q q K0) as [(NF & F1 & NR & _ & _)|[[F1 F]|[(_ & F1 & _ & K1 & F)|(NF & st2 & K1 & F)]]].
  - exfalso. apply NR. apply cfg_room_room; auto. destruct (N.le_gt_cases (c_iend cf) (a_top a)) as [B|B]; auto.
    exfalso. apply NF. split; auto.
  - left. split; [|apply F]. destruct F1 as [F1 F2]. intros i I. apply (v_dom cf tops lops ENV _ _ _ _ _ _ _ K). apply (as_dom _ W).
    rewrite F1. split; [lia|intros []].
  - right; left. exists (u_alloc_failed st). split; [|split; [eapply life_create; [exact HL|apply (F unit (fun u _ _ => (u, Continue)) tt)]|apply F]]. intros j.
    apply (v_same cf tops lops ENV st _ L C a P Q L C a P Q j K); [split; auto|reflexivity|tauto].
  - right; right. exists st2, (a_next a). destruct (next_none a W) as [NN N1].
    pose proof (inv_create cf _ _ _ _ _ _ _ K K1) as K2. pose proof K1 as [R1 W1].
    assert (NG : ~ gone a P (a_next a)) by (intros [G _]; apply psrc_dom in G; congruence).
    split; [|split; [|split; [eapply life_create; [exact HL|apply (F unit (fun u _ _ => (u, Continue)) tt)]|]]].
    + split.
      { pose proof (wr_iend _ _ _ _ _ R1) as IE1. assert (MN : a_map (a_create a) (a_next a) <> None) by (rewrite create_map, N.eqb_refl; discriminate).
        apply (w_range cf _ _ _ _ _ R1) in MN. lia. }
      split; [apply (v_none cf tops lops ENV _ _ _ _ _ _ _ K); auto|]. split.
      { apply (v_link cf tops lops ENV _ _ _ _ _ _ _ _ _ K2). rewrite create_map, N.eqb_refl. split; auto.
        intros [(u & v & E & N) _]. rewrite create_map, N.eqb_refl in E. congruence. }
      split.
      { intros j J. apply (v_same cf tops lops ENV st st2 L C a P Q L C _ _ _ j K K2).
        - rewrite create_map. destruct (N.eqb_spec j (a_next a)); [contradiction|reflexivity].
        - unfold gone, psrc. rewrite create_map. destruct (N.eqb_spec j (a_next a)); [contradiction|tauto]. }
      exists (N.of_nat (length (alinks a))). split; [exact (w_total cf _ _ _ _ K0)|].
      etransitivity; [exact (w_total cf _ _ _ _ K1)|]. f_equal.
      pose proof (alinks_count_set _ W). pose proof (alinks_count_set _ W1).
      assert (T : (a_top (a_create a) = a_top a + 1 /\ length (a_free (a_create a)) = length (a_free a)) \/
                  (a_top (a_create a) = a_top a /\ S (length (a_free (a_create a))) = length (a_free a))).
      { unfold a_create. destruct (a_free a) as [|y l]; cbn; auto. }
      lia.
    + intros s t g V. apply LL in V as [V _]. congruence.
    + apply F.
Qed.
(** An update of a link that is in both trees writes it and leaves the rest alone. *)
Lemma L_C82_update cf tops lops st L C i os ot s t :
  let U := unit_links cf tops lops in
  unit_env cf tops lops -> life cf tops lops st L C -> is_link U st i os ot -> may_change cf tops lops st L C i ->
  exists st', is_link U st' i s t /\ frame U st st' i /\ life cf tops lops st' L C /\
    calls_once (fun H h x => li_update U H h [i] [i; s; t] st x) st' (mkLink i s t) (mkLink i s t).
Proof.
  intros U ENV HL LI MC. destruct (life_inv cf tops lops ENV st L C HL) as (a & P & Q & K). pose proof K as (K0 & LL & CC).
  destruct (v_change cf tops lops ENV _ _ _ _ _ _ _ _ _ K MC LI) as (M & SO & LO).
  destruct (w_update cf tops lops ENV _ _ _ _ _ _ _ s t K0 M SO LO) as (st2 & K2 & F).
  assert (MN : a_map a i <> None) by congruence.
  pose proof (inv_put cf _ _ _ _ _ _ _ _ _ _ K SO MN K2) as K3. exists st2. split; [|split; [|split]].
  - apply (v_link cf tops lops ENV _ _ _ _ _ _ _ _ _ K3). cbn [a_map a_update]. rewrite upd_same. split; auto.
    rewrite gone_put. intros [[K4 _]|(_ & K4 & K5)]; [congruence|tauto].
  - intros j J. apply (v_same cf tops lops ENV _ _ _ _ _ _ _ _ _ _ _ _ j K K3).
    + cbn [a_map a_update]. now rewrite upd_other by auto.
    + rewrite gone_put. tauto.
  - eapply (life_update cf tops lops st L C i s t unit (fun u _ _ => (u, Continue)) tt); [exact HL|right; exact MC|apply F].
  - exact F.
Qed.
(** Interrupting a creation, wherever the process stops, creates the link or nothing. *)
Lemma L_C82_stopped_create cf tops lops st L C st1 orc st' :
  let U := unit_links cf tops lops in
  unit_env cf tops lops -> cfg_room cf -> life cf tops lops st L C -> create_point cf lops st st1 -> in_step cf st1 ->
  u_open cf (u_persist st1 orc) = Val (Ok st') ->
  life cf tops lops st' L C /\
  (same_links U st st' \/ exists i, creates cf U st st' i /\ forall s t g, ~ L i s t g).
Proof.
  intros U ENV RM HL PT LT E. split; [exact (life_stop_create cf tops lops st L C st1 orc st' HL PT LT E)|].
  destruct (life_inv cf tops lops ENV st L C HL) as (a & P & Q & K).
  assert (SC : forall s1 a1 P1 Q1, linv cf s1 L C a1 P1 Q1 -> same_cells st1 s1 ->
    same_links U s1 st' /\ u_count cf st' [] = u_count cf s1 []).
  { intros s1 a1 P1 Q1 K1 SC. pose proof (inv_cells cf tops lops ENV _ _ _ _ _ _ _ _ _ K1 SC LT E) as K2. split.
    - intros j. apply (v_same cf tops lops ENV _ _ _ _ _ _ _ _ _ _ _ _ j K1 K2); [reflexivity|tauto].
    - rewrite (w_total cf _ _ _ _ (proj1 K1)). exact (w_total cf _ _ _ _ (proj1 K2)). }
  destruct PT as [|st1 G|st1 r G|H h q x st1 x1 r G].
  - left. apply (SC _ _ _ _ K). apply same_cells_refl.
  - left. apply (SC _ _ _ _ K). exact (alloc_cells _ _ _ G).
  - left. apply (SC _ _ _ _ K). exact (grow_cells cf _ _ _ G).
  - destruct (inv_created cf tops lops ENV _ _ _ _ _ _ H h q x st1 x1 r K G) as (a' & P' & Q' & K').
    destruct (SC _ _ _ _ K' (same_cells_refl _)) as [SL SN].
    destruct (L_C82_create cf tops lops st L C q ENV RM HL) as [(_ & F)|[(st2 & S & _ & F)|(st2 & i & CR & NL & _ & F)]];
      specialize (F H h x); cbn [li_create unit_links] in F; fold U in F; rewrite G in F.
    + left. injection F as <- _ _. exact SL.
    + left. injection F as <- _ _. intros j. rewrite SL. apply S.
    + right. injection F as <- _ _. exists i. split; [|exact NL]. destruct CR as (C1 & C2 & C3 & C4 & n & C5 & C6).
      split; [exact C1|]. split; [exact C2|]. split; [unfold is_link; rewrite SL; exact C3|].
      split; [intros j J; rewrite SL; now apply C4|]. exists n. split; [exact C5|]. etransitivity; [exact SN|exact C6].
Qed.
(** Interrupting a deletion after its update is complete leaves the link empty or removes it, and
    leaves the rest alone, but for one free slot that may be shown as an empty link. *)
Lemma L_C82_stopped_delete_partial cf tops lops st L C i os ot p st1 orc st' :
  let U := unit_links cf tops lops in
  unit_env cf tops lops -> life cf tops lops st L C -> is_link U st i os ot -> may_change cf tops lops st L C i ->
  covered cf tops lops st L i -> delete_at tops lops st i os ot p st1 -> in_step cf st1 ->
  u_open cf (u_persist st1 orc) = Val (Ok st') ->
  life cf tops lops st' L C /\
  match p with
  | Zeroed => is_link U st' i 0 0 /\ frame U st st' i
  | Listed | Trimming _ => no_link U st' i /\ frame U st st' i
  | Detaching _ => no_link U st' i /\ exists k, 1 <= k < i /\ no_link U st k /\ (forall s t g, ~ L k s t g) /\
      is_link U st' k 0 0 /\ forall j, j <> i -> j <> k -> li_get U st' j = li_get U st j
  end.
Proof.
  intros U ENV HL LI MC CV PT LT E. split; [exact (life_stop_delete cf tops lops st L C i os ot p st1 orc st' HL LI MC CV PT LT E)|].
  destruct (life_inv cf tops lops ENV st L C HL) as (a & P & Q & K). pose proof K as (K0 & LL & CC).
  destruct (v_change cf tops lops ENV _ _ _ _ _ _ _ _ _ K MC LI) as (M & SO & LO).
  destruct (w_delete_at cf tops lops ENV _ _ _ _ _ _ _ _ _ K0 M SO LO (covered_map cf tops lops ENV _ _ _ _ _ _ _ K CV) PT) as (a1 & K1 & _ & S).
  assert (MI : a_map a1 i = None \/ a_map a1 i = Some (0, 0)).
  { destruct p; [tauto..|]. destruct S as (k & S). tauto. }
  assert (MJ : forall j, j <> i -> a_map a1 j = a_map a j \/ (a_map a j = None /\ a_map a1 j = Some (0, 0))).
  { intros j J. destruct p; [left; now apply S..|]. destruct S as (k & S1 & S2 & S3 & S4 & S5).
    destruct (N.eq_dec j k) as [->|]; auto. }
  pose proof (inv_drop cf _ _ _ _ _ _ _ _ _ K SO K1 MI MJ) as K2.
  pose proof (inv_cells cf tops lops ENV _ _ _ _ _ _ _ _ _ K2 (same_cells_refl _) LT E) as K3.
  assert (SJ : forall j, j <> i -> a_map a1 j = a_map a j -> li_get U st' j = li_get U st j).
  { intros j J EJ. apply (v_same cf tops lops ENV _ _ _ _ _ _ _ _ _ _ _ _ j K K3 EJ).
    rewrite (v_lost cf tops lops ENV _ _ _ _ _ _ _ K3), (v_lost cf tops lops ENV _ _ _ _ _ _ _ K). tauto. }
  assert (EM : forall j, a_map a1 j = Some (0, 0) -> is_link U st' j 0 0).
  { intros j EJ. apply (v_link cf tops lops ENV _ _ _ _ _ _ _ _ _ K3). split; auto. intros [(x & y & EX & N) _]. congruence. }
  assert (NO : a_map a1 i = None -> no_link U st' i).
  { intros EJ. apply (v_none cf tops lops ENV _ _ _ _ _ _ _ K3). auto. }
  destruct p as [| |n|n].
  - split; [now apply EM|]. intros j J. apply SJ; auto. now apply S.
  - split; [now apply NO|]. intros j J. apply SJ; auto. now apply S.
  - split; [now apply NO|]. intros j J. apply SJ; auto. now apply S.
  - destruct S as (k & S1 & S2 & S3 & S4 & S5). split; [now apply NO|]. exists k. split; [exact S1|].
    split; [apply (v_none cf tops lops ENV _ _ _ _ _ _ _ K); auto|].
    split; [intros s t g V; apply LL in V as [V _]; congruence|]. split; [now apply EM|]. intros j J1 J2. apply SJ; auto.
Qed.
(** So does a deletion, as long as something remains above every lost link below it. *)
Lemma L_C82_delete_partial cf tops lops st L C i os ot :
  let U := unit_links cf tops lops in
  unit_env cf tops lops -> life cf tops lops st L C -> is_link U st i os ot -> may_change cf tops lops st L C i ->
  covered cf tops lops st L i ->
  exists st', no_link U st' i /\ frame U st st' i /\ life cf tops lops st' L C /\
    calls_once (fun H h x => li_delete U H h [i] st x) st' (mkLink i os ot) nothing.
Proof.
  intros U ENV HL LI MC CV. destruct (life_inv cf tops lops ENV st L C HL) as (a & P & Q & K). pose proof K as (K0 & LL & CC).
  destruct (v_change cf tops lops ENV _ _ _ _ _ _ _ _ _ K MC LI) as (M & SO & LO).
  destruct (w_delete cf tops lops ENV _ _ _ _ _ _ _ K0 M SO LO) as (st2 & K2 & F).
  { intros l G LT. apply (v_lost cf tops lops ENV _ _ _ _ _ _ _ K) in G as (s & t & g & G).
    destruct (CV _ _ _ _ G LT) as (k & K1 & K2 & K3). exists k. split; auto. split; auto. now apply (v_dom cf tops lops ENV _ _ _ _ _ _ _ K). }
  assert (MN : a_map a i <> None) by congruence.
  pose proof (inv_delete cf _ _ _ _ _ _ _ _ K SO MN K2) as K3. exists st2. split; [|split; [|split]].
  - apply (v_none cf tops lops ENV _ _ _ _ _ _ _ K3). left. now rewrite delete_map, N.eqb_refl.
  - intros j J. apply (v_same cf tops lops ENV _ _ _ _ _ _ _ _ _ _ _ _ j K K3).
    + rewrite delete_map. destruct (N.eqb_spec j i); [contradiction|reflexivity].
    + unfold gone, psrc, put. rewrite delete_map. destruct (N.eqb_spec j i); [contradiction|tauto].
  - eapply (life_delete cf tops lops st L C i unit (fun u _ _ => (u, Continue)) tt); [exact HL|right; split; [exact MC|exact CV]|apply F].
  - exact F.
Qed.
(** count counts the lost links, each visits the others. *)
Lemma L_C82_count cf tops lops st L C q :
  let U := unit_links cf tops lops in let any := c_any cf in
  unit_env cf tops lops -> life cf tops lops st L C ->
  q = [] \/ q = [any] \/ q = [any; any] \/ q = [any; any; any] ->
  exists V W, all_links U st V /\ NoDup W /\ (forall i, In i W <-> exists s t g, L i s t g) /\
    (forall H (h : rhandler H) x, li_each U H h q st x = Val (run_handler h V x)) /\
    li_count U st q = Val (N.of_nat (length V + length W)).
Proof.
  intros U any ENV HL QQ. subst U any. pose proof (proj1 ENV) as CF.
  assert (Q1 : forall H (h : rhandler H) x, li_each (unit_links cf tops lops) H h q st x = u_each cf h [] st x).
  { intros H h x. cbn [li_each unit_links]. unfold u_each, u_each3.
    destruct QQ as [->|[->|[->| ->]]]; rewrite ?(ok_ipart _ CF), ?(ok_spart _ CF), ?(ok_tpart _ CF), ?qget_0, ?qget_1, ?qget_2;
      cbn [obind]; rewrite ?N.eqb_refl; reflexivity. }
  assert (Q2 : li_count (unit_links cf tops lops) st q = u_count cf st []).
  { cbn [li_count unit_links]. unfold u_count.
    destruct QQ as [->|[->|[->| ->]]]; rewrite ?(ok_ipart _ CF), ?(ok_spart _ CF), ?(ok_tpart _ CF), ?qget_0, ?qget_1, ?qget_2;
      cbn [obind]; rewrite ?N.eqb_refl; reflexivity. }
  rewrite Q2. destruct (life_inv cf tops lops ENV st L C HL) as (a & P & Q & K). pose proof K as (K0 & LL & CC).
  pose proof K0 as [R W]. set (f := fun i => match shown st a i with Some _ => true | None => false end).
  set (g := fun i => match a_map a i with Some _ => negb (f i) | None => false end).
  exists (alinks (mkA (a_top a) (a_free a) (shown st a))), (filter g (range1 (a_top a))).
  assert (MS : forall i p, shown st a i = Some p -> a_map a i = Some p).
  { intros i [s t] E. apply (shown_some cf _ _ _ _ _ _ _ R) in E. apply E. }
  split; [|split; [|split; [|split]]].
  - split; [unfold alinks; cbn [a_top a_map]; rewrite <- (Nnat.N2Nat.id (a_top a)); apply sorted_range1_gen|]. intros i s t. rewrite (v_link cf tops lops ENV _ _ _ _ _ _ _ _ _ K).
    rewrite <- (shown_some cf _ _ _ _ _ _ _ R). unfold alinks. rewrite in_flat_map. cbn [a_top a_map]. split.
    + intros (j & _ & I). destruct (shown st a j) as [[u v]|] eqn:E; [|destruct I]. destruct I as [I|[]]. injection I as -> -> ->. exact E.
    + intros E. exists i. rewrite E. split; [|now left]. apply in_range1. apply (w_range cf _ _ _ _ i R). rewrite (MS _ _ E). discriminate.
  - apply NoDup_filter, nodup_range1.
  - intros i. rewrite <- (v_lost cf tops lops ENV _ _ _ _ _ _ _ K), filter_In, in_range1. unfold g, f. split.
    + intros [I E]. destruct (a_map a i) eqn:M; [|discriminate]. destruct (shown st a i) eqn:S; [discriminate|].
      apply (shown_none cf _ _ _ _ _ R) in S as [S|S]; [congruence|exact S].
    + intros G. pose proof G as [G1 _]. apply psrc_dom in G1. split; [now apply (w_range cf _ _ _ _ i R)|].
      assert (S : shown st a i = None) by (apply (shown_none cf _ _ _ _ _ R); auto). rewrite S. destruct (a_map a i); [reflexivity|contradiction].
  - intros H h x. rewrite Q1. exact (w_all cf tops lops ENV _ _ _ _ H h x K0).
  - rewrite (w_total cf _ _ _ _ K0). do 2 f_equal. unfold alinks. cbn [a_top a_map]. rewrite !alinks_length_gen.
    fold f. unfold g. generalize (range1 (a_top a)). intros l. induction l as [|i l IH]; [reflexivity|]. cbn [filter].
    assert (FE : f i = match shown st a i with Some _ => true | None => false end) by reflexivity. rewrite FE.
    destruct (shown st a i) as [p|] eqn:E.
    + rewrite (MS _ _ E). cbn [negb length]. rewrite IH. reflexivity.
    + destruct (a_map a i); cbn [negb length]; rewrite IH; lia.
Qed.
(** There are not more links and lost links than indices. *)
Lemma life_bound cf tops lops st L C (V : list link) : unit_env cf tops lops -> life cf tops lops st L C -> NoDup V ->
  (forall l, In l V -> linked (unit_links cf tops lops) st (l_index l) \/ exists s t g, L (l_index l) s t g) ->
  (forall l, In l V -> forall k, In k V -> l_index l = l_index k -> l = k) -> N.of_nat (length V) <= c_iend cf.
Proof.
  intros ENV HL ND A U. destruct (life_inv cf tops lops ENV st L C HL) as (a & P & Q & K). pose proof K as ([R W] & _).
  pose proof (wr_iend _ _ _ _ _ R) as IE.
  assert (X : NoDup (map l_index V)).
  { clear A. induction V as [|l V IH]; [constructor|]. inversion ND as [|? ? NI ND']; subst. cbn [map]. constructor.
    - intros I. apply in_map_iff in I as (k & E & I). apply NI. rewrite (U l (or_introl eq_refl) k (or_intror I) (eq_sym E)). exact I.
    - apply IH; auto. intros k I j J. apply U; now right. }
  rewrite <- (map_length l_index V). assert (N.of_nat (length (map l_index V)) <= a_top a); [|lia].
  apply bounded_length; auto. intros i I. apply in_map_iff in I as (l & <- & I). apply (w_range cf _ _ _ _ _ R).
  apply (v_dom cf tops lops ENV _ _ _ _ _ _ _ K). now apply A.
Qed.
(** A query by source visits the links with that source; a query by target visits the links
    with that target that the tree of targets has, and lost links that it still has. *)
Lemma L_C82_by_source cf tops lops st L C s :
  let U := unit_links cf tops lops in
  unit_env cf tops lops -> life cf tops lops st L C -> s <> 0 -> s <> c_any cf ->
  exists V, NoDup V /\ (forall l, In l V <-> is_link U st (l_index l) (l_source l) (l_target l) /\ l_source l = s) /\
    (forall H (h : rhandler H) x, li_each U H h [c_any cf; s; c_any cf] st x = Val (run_handler h V x)) /\
    li_count U st [c_any cf; s; c_any cf] = Val (N.of_nat (length V)).
Proof.
  intros U ENV HL S0 SA. subst U. destruct (life_inv cf tops lops ENV st L C HL) as (a & P & Q & K). pose proof K as (K0 & LL & CC).
  pose proof K0 as [R W]. destruct (w_src_visits cf tops lops ENV _ _ _ _ s K0 S0) as (V & V1 & V2 & V3 & V4).
  exists V. split; auto. split; [|split].
  - intros l. rewrite V2, (v_link cf tops lops ENV _ _ _ _ _ _ _ _ _ K). unfold gone. split; [tauto|].
    intros [[M G] E]. split; auto. split; auto. assert (I1 : 1 <= l_index l) by (apply (w_range cf _ _ _ _ _ R); congruence).
    destruct (w_inP cf _ _ _ _ _ R I1) as [[_ N]|[_ Y]]; auto. exfalso. apply G. split; auto. exists (l_source l), (l_target l). split; congruence.
  - intros H h x. rewrite <- V3. cbn [li_each unit_links]. unfold u_each.
    rewrite (ok_ipart _ (e_cf _ _ _ ENV)), (ok_spart _ (e_cf _ _ _ ENV)), (ok_tpart _ (e_cf _ _ _ ENV)).
    change (qget [c_any cf; s; c_any cf] 0) with (Val (c_any cf)). change (qget [c_any cf; s; c_any cf] 1) with (Val s).
    change (qget [c_any cf; s; c_any cf] 2) with (Val (c_any cf)). cbn [obind]. unfold u_each3. rewrite N.eqb_refl.
    destruct (N.eqb_spec s (c_any cf)); [contradiction|]. cbn [andb]. reflexivity.
  - rewrite <- V4. cbn [li_count unit_links]. unfold u_count.
    rewrite (ok_ipart _ (e_cf _ _ _ ENV)), (ok_spart _ (e_cf _ _ _ ENV)), (ok_tpart _ (e_cf _ _ _ ENV)).
    change (qget [c_any cf; s; c_any cf] 0) with (Val (c_any cf)). change (qget [c_any cf; s; c_any cf] 1) with (Val s).
    change (qget [c_any cf; s; c_any cf] 2) with (Val (c_any cf)). cbn [obind]. rewrite !N.eqb_refl.
    destruct (N.eqb_spec s (c_any cf)); [contradiction|]. reflexivity.
Qed.
Lemma L_C82_by_target cf tops lops st L C t :
  let U := unit_links cf tops lops in
  unit_env cf tops lops -> life cf tops lops st L C -> t <> 0 -> t <> c_any cf ->
  exists V, NoDup V /\
    (forall l, In l V <-> l_target l = t /\
       ((is_link U st (l_index l) (l_source l) (l_target l) /\ ~ C (l_index l)) \/ L (l_index l) (l_source l) (l_target l) true)) /\
    (forall H (h : rhandler H) x, li_each U H h [c_any cf; c_any cf; t] st x = Val (run_handler h V x)) /\
    li_count U st [c_any cf; c_any cf; t] = Val (N.of_nat (length V)).
Proof.
  intros U ENV HL S0 SA. subst U. destruct (life_inv cf tops lops ENV st L C HL) as (a & P & Q & K). pose proof K as (K0 & LL & CC).
  pose proof K0 as [R W]. destruct (w_tgt_visits cf tops lops ENV _ _ _ _ t K0 S0) as (V & V1 & V2 & V3 & V4).
  exists V. split; auto. split; [|split].
  - intros l. rewrite V2, (v_link cf tops lops ENV _ _ _ _ _ _ _ _ _ K), LL, CC. split.
    + intros (M & YQ & E). split; auto. assert (I1 : 1 <= l_index l) by (apply (w_range cf _ _ _ _ _ R); congruence).
      destruct (w_inP cf _ _ _ _ _ R I1) as [[_ N]|[_ Y]].
      * destruct (N.eq_dec (l_source l) 0) as [Z|Z].
        -- left. assert (NG : ~ gone a P (l_index l)) by (intros [(u & v & M2 & N2) _]; congruence).
           split; [split; auto|]. unfold astray. tauto.
        -- right. split; auto. split; [|tauto]. split; auto. exists (l_source l), (l_target l). auto.
      * left. unfold gone, astray. tauto.
    + intros (E & [[[M G] A]|(M & G & QQ)]).
      * split; auto. split; auto. assert (I1 : 1 <= l_index l) by (apply (w_range cf _ _ _ _ _ R); congruence).
        destruct (w_inQ cf _ _ _ _ _ R I1) as [[_ N]|[_ Y]]; auto. exfalso. apply A. split; auto. split; auto.
        exists (l_source l), (l_target l). split; congruence.
      * split; auto. split; auto. now apply QQ.
  - intros H h x. rewrite <- V3. cbn [li_each unit_links]. unfold u_each.
    rewrite (ok_ipart _ (e_cf _ _ _ ENV)), (ok_spart _ (e_cf _ _ _ ENV)), (ok_tpart _ (e_cf _ _ _ ENV)).
    change (qget [c_any cf; c_any cf; t] 0) with (Val (c_any cf)). change (qget [c_any cf; c_any cf; t] 1) with (Val (c_any cf)).
    change (qget [c_any cf; c_any cf; t] 2) with (Val t). cbn [obind]. unfold u_each3. rewrite N.eqb_refl.
    destruct (N.eqb_spec t (c_any cf)); [contradiction|]. reflexivity.
  - rewrite <- V4. cbn [li_count unit_links]. unfold u_count.
    rewrite (ok_ipart _ (e_cf _ _ _ ENV)), (ok_spart _ (e_cf _ _ _ ENV)), (ok_tpart _ (e_cf _ _ _ ENV)).
    change (qget [c_any cf; c_any cf; t] 0) with (Val (c_any cf)). change (qget [c_any cf; c_any cf; t] 1) with (Val (c_any cf)).
    change (qget [c_any cf; c_any cf; t] 2) with (Val t). cbn [obind]. rewrite !N.eqb_refl.
    destruct (N.eqb_spec t (c_any cf)); [contradiction|]. reflexivity.
Qed.
(** A query for either end visits the former, then the latter. *)
Lemma L_C82_either_end cf tops lops st L C v :
  let U := unit_links cf tops lops in
  unit_env cf tops lops -> cfg_room cf -> life cf tops lops st L C -> v <> 0 -> v <> c_any cf ->
  exists V1 V2, NoDup V1 /\ NoDup V2 /\
    (forall l, In l V1 <-> is_link U st (l_index l) (l_source l) (l_target l) /\ l_source l = v) /\
    (forall l, In l V2 <-> l_target l = v /\
       ((is_link U st (l_index l) (l_source l) (l_target l) /\ ~ C (l_index l)) \/ L (l_index l) (l_source l) (l_target l) true)) /\
    (forall H (h : rhandler H) x, li_each U H h [c_any cf; v] st x = Val (run_handler h (V1 ++ V2) x)) /\
    li_count U st [c_any cf; v] = Val (N.of_nat (length (V1 ++ V2))).
Proof.
  intros U ENV RM HL V0 VA. pose proof (proj1 ENV) as CF.
  destruct (L_C82_by_source cf tops lops st L C v ENV HL V0 VA) as (L1 & A1 & A2 & A3 & A4).
  destruct (L_C82_by_target cf tops lops st L C v ENV HL V0 VA) as (L2 & B1 & B2 & B3 & B4).
  exists L1, L2. split; auto. split; auto. split; auto. split; auto.
  assert (R1 : forall s t H (h : rhandler H) x, li_each (unit_links cf tops lops) H h [c_any cf; s; t] st x = u_each3 cf st h (c_any cf) s t x).
  { intros s t H h x. cbn [li_each unit_links]. unfold u_each. rewrite (ok_ipart _ CF), (ok_spart _ CF), (ok_tpart _ CF), qget_0, qget_1, qget_2. reflexivity. }
  split.
  - intros H h x. specialize (A3 H h x). specialize (B3 H h). rewrite R1 in A3. subst U. cbn [li_each unit_links].
    unfold u_each. rewrite (ok_ipart _ CF), qget_0. cbn [obind]. rewrite N.eqb_refl. destruct (N.eqb_spec v (c_any cf)); [contradiction|].
    rewrite A3. cbn [obind]. rewrite run_handler_app. destruct (run_handler h L1 x) as [x1 []]; [rewrite <- R1; apply B3|reflexivity].
  - assert (LE : N.of_nat (length L1) <= c_iend cf /\ N.of_nat (length L2) <= c_iend cf).
    { split; [apply (life_bound cf tops lops st L C L1)|apply (life_bound cf tops lops st L C L2)]; auto.
      - intros l I. apply A2 in I. left. exists (l_source l), (l_target l). tauto.
      - intros l I k J E. apply A2 in I, J. destruct l as [i x y], k as [j x' y']. cbn [l_index l_source l_target] in *.
        subst j. destruct I as [I _], J as [J _]. unfold is_link in I, J. rewrite I in J. congruence.
      - intros l I. apply B2 in I as [_ [[I _]|I]]; [left; exists (l_source l), (l_target l)|right; exists (l_source l), (l_target l), true]; tauto.
      - intros l I k J E. apply B2 in I, J. destruct l as [i x y], k as [j x' y']. cbn [l_index l_source l_target] in *. subst j.
        assert (ONE : forall s t s' t', is_link U st i s t \/ L i s t true -> is_link U st i s' t' \/ L i s' t' true -> (s, t) = (s', t')).
        { intros s t s' t' X Y. destruct (life_inv cf tops lops ENV st L C HL) as (a & P & Q & K). pose proof K as (K0 & LL & CC).
          assert (Z : forall s t, is_link U st i s t \/ L i s t true -> a_map a i = Some (s, t)).
          { intros s0 t0 [Z|Z]; [now apply (v_link cf tops lops ENV _ _ _ _ _ _ _ _ _ K) in Z|now apply LL in Z]. }
          apply Z in X, Y. congruence. }
        assert (X : (x, y) = (x', y')) by (apply ONE; tauto). congruence. }
    subst U. cbn [li_count unit_links] in A4, B4 |- *. unfold u_count in A4, B4 |- *. rewrite (ok_ipart _ CF), (ok_spart _ CF), (ok_tpart _ CF), qget_0, qget_1, qget_2 in A4, B4.
    rewrite (ok_ipart _ CF), qget_0. cbn [obind] in *. rewrite !N.eqb_refl in *. destruct (N.eqb_spec v (c_any cf)); [contradiction|]. cbn [andb] in *.
    rewrite A4, B4. cbn [obind]. pose proof (room_dbl _ RM). rewrite cadd_ok by lia. f_equal. rewrite app_length. lia.
Qed.
(** A query for one index visits that link if it is shown and matches. *)
Lemma L_C82_by_index cf tops lops st L C i q :
  let U := unit_links cf tops lops in
  unit_env cf tops lops -> life cf tops lops st L C -> i <> c_any cf ->
  q = [i] \/ (exists v, q = [i; v]) \/ (exists s t, q = [i; s; t]) ->
  (forall l, li_get U st i = Val (Some l) -> query_match (c_any cf) q l ->
     (forall H (h : rhandler H) x, li_each U H h q st x = Val (h x l)) /\ li_count U st q = Val 1) /\
  ((forall l, li_get U st i = Val (Some l) -> ~ query_match (c_any cf) q l) ->
     (forall H (h : rhandler H) x, li_each U H h q st x = Val (x, Continue)) /\ li_count U st q = Val 0).
Proof.
  intros U ENV HL IA Q. subst U. destruct (life_inv cf tops lops ENV st L C HL) as (a & P & Q' & K). pose proof K as ([R _] & _).
  pose proof (proj1 ENV) as CF. pose proof (v_get cf tops lops ENV _ _ _ _ _ _ i K) as G. pose proof G as G'. cbn [li_get unit_links] in G'. rewrite G.
  set (any := c_any cf) in *.
  pose proof (w_exists cf tops lops ENV _ _ _ _ i R) as EX.
  assert (EI : i =? any = false) by (now apply N.eqb_neq).
  assert (EACH : forall H (h : rhandler H) x, li_each (unit_links cf tops lops) H h q st x =
    match shown st a i with
    | Some (s, t) => if match q with
        | [_; v] => (v =? any) || (s =? v) || (t =? v)
        | [_; s'; t'] => ((s' =? any) || (s =? s')) && ((t' =? any) || (t =? t'))
        | _ => true end then Val (h x (mkLink i s t)) else Val (x, Continue)
    | None => Val (x, Continue) end).
  { intros H h x. cbn [li_each unit_links]. unfold u_each.
    destruct Q as [->|[(v & ->)|(s' & t' & ->)]]; rewrite (ok_ipart _ CF), ?(ok_spart _ CF), ?(ok_tpart _ CF), ?qget_0, ?qget_1, ?qget_2;
      cbn [obind]; fold any; unfold u_each3; fold any; rewrite ?EI; unfold u_each_one;
      rewrite G'; destruct (shown st a i) as [[s t]|]; cbn [obind olink l_source l_target]; try reflexivity.
    rewrite (N.eqb_sym s' s), (N.eqb_sym t' t).
    destruct (N.eqb_spec s' any), (N.eqb_spec t' any); cbn [negb andb orb]; rewrite ?andb_true_r; reflexivity. }
  assert (COUNT : li_count (unit_links cf tops lops) st q = Val (b2n
    match shown st a i with
    | Some (s, t) => match q with
        | [_; v] => (v =? any) || (s =? v) || (t =? v)
        | [_; s'; t'] => ((s' =? any) || (s =? s')) && ((t' =? any) || (t =? t'))
        | _ => true end
    | None => false end)).
  { cbn [li_count unit_links]. unfold u_count.
    destruct Q as [->|[(v & ->)|(s' & t' & ->)]];
      rewrite (ok_ipart _ CF), ?(ok_spart _ CF), ?(ok_tpart _ CF), ?qget_0, ?qget_1, ?qget_2;
      cbn [obind]; fold any; rewrite ?EI, EX; cbn [obind];
      destruct (shown st a i) as [[s t]|] eqn:E; cbn [obind negb]; try reflexivity.
    - rewrite G'. cbn [obind olink l_source l_target]. destruct (v =? any); reflexivity.
    - apply (shown_some cf _ _ _ _ _ _ _ R) in E as [E _].
      assert (IR : 1 <= i <= a_top a) by (apply (w_range cf _ _ _ _ i R); congruence). pose proof (wr_len _ _ _ _ _ R).
      rewrite rdu_ok by lia. cbn [obind].
      rewrite (wr_data _ _ _ _ _ R i _ E). cbn [fst snd].
      destruct (N.eqb_spec s' any), (N.eqb_spec t' any); cbn [negb andb orb]; rewrite ?andb_true_r; reflexivity. }
  rewrite COUNT.
  assert (MT : forall s t, query_match any q (mkLink i s t) <-> match q with
        | [_; v] => (v =? any) || (s =? v) || (t =? v)
        | [_; s'; t'] => ((s' =? any) || (s =? s')) && ((t' =? any) || (t =? t'))
        | _ => true end = true).
  { intros s t. destruct Q as [->|[(v & ->)|(s' & t' & ->)]]; cbn [query_match l_index l_source l_target]; unfold part_match.
    - tauto.
    - rewrite !orb_true_iff, !N.eqb_eq. split; [intros [_ [[?|?]|[?|?]]]|intros [[?|?]|?]]; auto.
    - rewrite andb_true_iff, !orb_true_iff, !N.eqb_eq. split; [intros (_ & [?|?] & [?|?])|intros [[?|?] [?|?]]]; auto. }
  destruct (shown st a i) as [[s t]|] eqn:E; cbn [olink] in *.
  - split.
    + intros l E1 M. injection E1 as <-. apply MT in M. rewrite M in *. split; [exact EACH|reflexivity].
    + intros N. specialize (N _ eq_refl). rewrite MT in N. apply not_true_iff_false in N. rewrite N in *. split; [exact EACH|reflexivity].
  - split; [intros l E1; discriminate|]. intros _. split; [exact EACH|reflexivity].
Qed.
(** A search finds a link with the pair unless there is none; lost links are not found. *)
Lemma L_C82_search cf tops lops st L C s t :
  let U := unit_links cf tops lops in
  unit_env cf tops lops -> life cf tops lops st L C -> s <> 0 -> s <> c_any cf -> t <> c_any cf ->
  (exists i, is_link U st i s t /\
     (forall H (h : rhandler H) x, li_each U H h [c_any cf; s; t] st x = Val (h x (mkLink i s t))) /\
     li_count U st [c_any cf; s; t] = Val 1) \/
  ((forall i, ~ is_link U st i s t) /\
   (forall H (h : rhandler H) x, li_each U H h [c_any cf; s; t] st x = Val (x, Continue)) /\
   li_count U st [c_any cf; s; t] = Val 0).
Proof.
  intros U ENV HL S0 SA TA. subst U. pose proof (proj1 ENV) as CF. destruct (life_inv cf tops lops ENV st L C HL) as (a & P & Q & K). pose proof K as (K0 & LL & CC).
  pose proof K0 as [R W]. destruct (w_search cf _ _ _ _ s t K0) as (r & E & V).
  assert (QE : forall H (h : rhandler H) x, li_each (unit_links cf tops lops) H h [c_any cf; s; t] st x = u_each_one cf st h r (fun _ => true) x).
  { intros H h x. cbn [li_each unit_links]. unfold u_each. rewrite (ok_ipart _ CF), (ok_spart _ CF), (ok_tpart _ CF), qget_0, qget_1, qget_2.
    cbn [obind]. unfold u_each3. rewrite N.eqb_refl. destruct (N.eqb_spec s (c_any cf)), (N.eqb_spec t (c_any cf)); try contradiction.
    cbn [andb]. rewrite E. reflexivity. }
  assert (QC : li_count (unit_links cf tops lops) st [c_any cf; s; t] = Val (if r =? 0 then 0 else 1)).
  { cbn [li_count unit_links]. unfold u_count. rewrite (ok_ipart _ CF), (ok_spart _ CF), (ok_tpart _ CF), qget_0, qget_1, qget_2.
    cbn [obind]. rewrite N.eqb_refl. destruct (N.eqb_spec s (c_any cf)), (N.eqb_spec t (c_any cf)); try contradiction.
    cbn [andb]. rewrite E. cbn [obind]. now rewrite (ok_null _ CF). }
  destruct V as [[-> V]|[V1 V2]].
  - right. assert (NL : forall i, ~ is_link (unit_links cf tops lops) st i s t).
    { intros i LI. apply (v_link cf tops lops ENV _ _ _ _ _ _ _ _ _ K) in LI as [M G].
      assert (I1 : 1 <= i) by (apply (w_range cf _ _ _ _ _ R); congruence).
      destruct (w_inP cf _ _ _ _ _ R I1) as [[_ N]|[_ Y]]; [|exact (V _ Y M)]. apply G. split; auto. exists s, t. auto. }
    split; auto. split; auto. intros H h x. rewrite QE. unfold u_each_one.
    pose proof (v_get cf tops lops ENV _ _ _ _ _ _ 0 K) as G. cbn [li_get unit_links] in G. rewrite G.
    assert (Z : shown st a 0 = None).
    { destruct (shown st a 0) as [[y z]|] eqn:Z; auto. apply (shown_some cf _ _ _ _ _ _ _ R) in Z as [Z _].
      assert (1 <= 0 <= a_top a) by (apply (w_range cf _ _ _ _ 0 R); congruence). lia. }
    rewrite Z. reflexivity.
  - left. exists r. assert (LI : is_link (unit_links cf tops lops) st r s t).
    { apply (v_link cf tops lops ENV _ _ _ _ _ _ _ _ _ K). unfold gone. tauto. }
    assert (R0 : r <> 0) by (assert (1 <= r <= a_top a) by (apply (w_range cf _ _ _ _ _ R); congruence); lia).
    split; auto. split.
    + intros H h x. rewrite QE. unfold u_each_one. unfold is_link in LI. cbn [li_get unit_links] in LI. rewrite LI. reflexivity.
    + rewrite QC. destruct (N.eqb_spec r 0); [contradiction|reflexivity].
Qed.

(** ** Outside the contracts *)
(** The list and the trees of the contracts, refusing to detach what they do not contain. *)
Fixpoint nexts (d : N -> N * N) (n : nat) (x : N) : list N :=
  match n with O => [] | S n' => x :: nexts d n' (snd (d x)) end.
Definition checked_list (lops : list_ops) : list_ops :=
  mkListOps (l_attach lops)
    (fun h d x => if existsb (N.eqb x) (nexts d (N.to_nat (lcount h)) (lfirst h)) then l_detach lops h d x else Panic).
Definition checked_tree (tops : tree_ops) : tree_ops :=
  mkTreeOps (t_attach tops) (fun k c r x => if nz (c x) =? 0 then Panic else t_detach tops k c r x).

Lemma nexts_seg d : forall l p n, seg d p l n -> nexts d (length l) (hd n l) = l.
Proof.
  induction l as [|x l IH]; intros p n SG; [reflexivity|]. destruct SG as [E SG]. cbn [length nexts hd]. rewrite E. cbn [snd].
  now rewrite (IH _ _ SG).
Qed.
Lemma nexts_lrep h d l : lrep h d l -> nexts d (N.to_nat (lcount h)) (lfirst h) = l.
Proof.
  intros (_ & _ & LF & _ & LC & SG). rewrite LF, LC, Nnat.Nat2N.id. destruct l as [|x l]; [reflexivity|].
  cbn [hd]. exact (nexts_seg d (x :: l) _ x SG).
Qed.
Lemma checked_list_ok lops : list_ops_ok lops -> list_ops_ok (checked_list lops).
Proof.
  intros [A D]. split; [exact A|]. intros h d l x R I. cbn [l_detach checked_list]. rewrite (nexts_lrep _ _ _ R).
  assert (E : existsb (N.eqb x) l = true) by (apply existsb_exists; exists x; split; [exact I|apply N.eqb_refl]).
  rewrite E. now apply D.
Qed.
Lemma checked_tree_ok tops : tree_ops_ok tops -> tree_ops_ok (checked_tree tops).
Proof.
  intros [A D]. split; [exact A|]. intros k c root t x R ND WS KA I. cbn [t_detach checked_tree].
  pose proof (trep_size _ _ _ _ R I) as Z. apply N.eqb_neq in Z. rewrite Z. now apply (D k c root t x).
Qed.

Section Outside.
  Variables (cf : cfg) (tops : tree_ops) (lops : list_ops).

  Lemma trim_refused : unit_env cf tops (checked_list lops) -> forall n fuel st a P Q l,
    wrep cf st a P Q -> N.to_nat (a_top a) = n -> (n < fuel)%nat ->
    gone a P l -> (forall k, l < k -> a_map a k = None) -> u_trim (checked_list lops) fuel st = Panic.
  Proof.
    intros ENV. induction n as [|n IH]; intros fuel st a P Q l R TN F G NK; destruct fuel as [|fuel]; try lia; cbn [u_trim].
    - exfalso. destruct G as [G _]. apply psrc_dom in G. apply (w_range cf _ _ _ _ l R) in G. lia.
    - assert (LT : 1 <= l <= a_top a). { destruct G as [G _]. apply psrc_dom in G. now apply (w_range cf _ _ _ _ l R) in G. }
      rewrite (w_header cf _ _ _ _ R). cbn [obind]. rewrite (wr_alloc _ _ _ _ _ R).
      assert (TE : a_top a = N.of_nat (S n)) by lia.
      destruct (N.ltb_spec 0 (a_top a)) as [_|]; [|lia].
      rewrite (w_unused cf _ _ _ _ _ R) by lia. cbn [obind].
      destruct (N.eq_dec l (a_top a)) as [->|NE].
      + assert (ES : shown st a (a_top a) = None) by (apply (shown_none cf _ _ _ _ _ R); auto). rewrite ES. cbn [negb].
        unfold u_unused_detach. cbn [l_detach checked_list]. rewrite (nexts_lrep _ _ _ (wr_list _ _ _ _ _ R)).
        destruct (existsb (N.eqb (a_top a)) (a_free a)) eqn:EX; [|reflexivity]. exfalso.
        apply existsb_exists in EX as (x & X1 & X2). apply N.eqb_eq in X2. subst x.
        destruct G as [G _]. apply psrc_dom in G. apply (wr_dom _ _ _ _ _ R) in G. tauto.
      + assert (EM : a_map a (a_top a) = None) by (apply NK; lia).
        unfold shown. rewrite EM. cbn [negb].
        assert (HI : In (a_top a) (a_free a)).
        { destruct (in_dec N.eq_dec (a_top a) (a_free a)); auto. exfalso.
          assert (K : a_map a (a_top a) <> None) by (apply (wr_dom _ _ _ _ _ R); split; [lia|auto]). congruence. }
        destruct (w_unused_detach cf tops (checked_list lops) ENV _ _ _ _ _ R HI) as (st1 & E1 & R1).
        rewrite E1. cbn [obind]. rewrite csub_ok by lia. cbn [obind].
        apply w_lower in R1; cbn [a_top a_map] in *; [|lia|apply upd_same].
        assert (MM : forall j, upd (upd (a_map a) (a_top a) (Some (0, 0))) (a_top a) None j = a_map a j).
        { intros j. unfold upd. destruct (N.eqb_spec j (a_top a)) as [->|]; auto. }
        apply (IH fuel _ _ _ _ l R1); cbn [a_top]; [lia|lia| |].
        * destruct G as [(x & y & G1 & G2) G3]. split; auto. exists x, y. cbn [a_map]. rewrite MM. auto.
        * intros k LK. cbn [a_map]. rewrite MM. auto.
  Qed.
End Outside.
(** Deleting the topmost link when the first thing below it is a lost link makes the store
    detach the lost link from the free list it is not in. *)
Lemma L_C82_uncovered cf tops lops st L C i l :
  let lops' := checked_list lops in let U := unit_links cf tops lops' in
  unit_env cf tops lops -> life cf tops lops' st L C -> linked U st i -> may_change cf tops lops' st L C i ->
  i = h_alloc st -> l < i -> (exists s t g, L l s t g) ->
  (forall k, l < k -> k <> i -> no_link U st k /\ forall s t g, ~ L k s t g) ->
  unit_env cf tops lops' /\
  forall H (h : whandler H) x, li_delete U H h [i] st x = Panic.
Proof.
  intros lops' U ENV0 HL (os & ot & LI) MC IT LT LL0 NK.
  assert (ENV : unit_env cf tops lops').
  { destruct ENV0 as (E1 & E2 & E3). split; [exact E1|]. split; [exact E2|apply checked_list_ok; exact E3]. }
  split; [exact ENV|]. intros H h x.
  destruct (life_inv cf tops lops' ENV st L C HL) as (a & P & Q & K). pose proof K as (K0 & LL & CC).
  destruct (v_change cf tops lops' ENV _ _ _ _ _ _ _ _ _ K MC LI) as (EM & S & LO). pose proof K0 as [R W].
  destruct (w_update cf tops lops' ENV st a P Q i os ot 0 0 K0 EM S LO) as (st1 & [R1 W1] & E1).
  specialize (E1 unit (fun u _ _ => (u, Continue)) tt). cbn beta iota in E1. cbn [fst snd] in E1.
  assert (MN : a_map a i <> None) by congruence.
  assert (NN : forall k, l < k -> k <> i -> a_map a k = None).
  { intros k K1 K2. destruct (NK k K1 K2) as [N1 N2]. destruct (v_dec cf tops lops' ENV _ _ _ _ _ _ k K) as [(s & t & V)|[(s & t & g & V)|V]]; auto.
    - unfold no_link, is_link in *. fold U in V. congruence.
    - exfalso. exact (N2 _ _ _ V). }
  apply (v_lost cf tops lops' ENV _ _ _ _ _ _ _ K) in LL0.
  pose proof (w_range cf _ _ _ _ i R MN) as IR.
  assert (TI : a_top a = i).
  { rewrite IT. symmetry. exact (wr_alloc _ _ _ _ _ R). }
  assert (SH : shown st a i = Some (os, ot)) by (apply (shown_some cf _ _ _ _ _ _ _ R); split; [exact EM|apply S]).
  cbn [li_delete unit_links U]. unfold u_delete. change (qget [i] 0) with (Val i). cbn [obind].
  rewrite (w_get cf tops lops' ENV _ _ _ _ _ R). cbn [obind]. rewrite SH. cbn [olink]. rewrite E1.
  cbn [obind]. rewrite (w_header cf _ _ _ _ R1). cbn [obind]. rewrite (wr_alloc _ _ _ _ _ R1). cbn [a_top a_update].
  rewrite TI, N.compare_refl. rewrite csub_ok by lia. cbn [obind].
  assert (R2 : wrep cf (set_alloc st1 (i - 1)) (mkA (i - 1) (a_free a) (upd (upd (a_map a) i (Some (0, 0))) i None)) (put P i (0 <> 0)) (put Q i (0 <> 0))).
  { pose proof (w_lower cf _ _ _ _ R1) as R2. cbn [a_top a_update a_free a_map] in R2. rewrite TI in R2. apply R2; [lia|]. apply upd_same. }
  unfold lops'. rewrite (trim_refused cf tops lops ENV (N.to_nat (i - 1)) (u_fuel st1) _ _ _ _ l R2); [reflexivity|reflexivity| | |].
  - unfold u_fuel. rewrite (wr_alloc _ _ _ _ _ R1). cbn [a_top a_update]. lia.
  - destruct LL0 as [(s & t & G1 & G2) G3]. split.
    + exists s, t. cbn [a_map]. rewrite !upd_other by lia. auto.
    + unfold put. intros [[-> _]|[_ G4]]; [lia|auto].
  - intros k LK. cbn [a_map]. destruct (N.eq_dec k i) as [->|NE]; [apply upd_same|]. rewrite !upd_other by auto. now apply NN.
Qed.
(** Updating or deleting a link that is missing from the tree of targets makes the store detach
    it from that tree. *)
Lemma L_C82_stray cf tops lops st L C i :
  let tops' := checked_tree tops in let U := unit_links cf tops' lops in
  unit_env cf tops lops -> life cf tops' lops st L C -> linked U st i -> separable U st i -> C i ->
  unit_env cf tops' lops /\
  (forall s t H (h : whandler H) x, li_update U H h [i] [i; s; t] st x = Panic) /\
  (forall H (h : whandler H) x, li_delete U H h [i] st x = Panic).
Proof.
  intros tops' U ENV0 HL (os & ot & LI) SE CI.
  assert (ENV : unit_env cf tops' lops).
  { destruct ENV0 as (E1 & E2 & E3). split; [exact E1|]. split; [apply checked_tree_ok; exact E2|exact E3]. }
  split; [exact ENV|].
  destruct (life_inv cf tops' lops ENV st L C HL) as (a & P & Q & K). pose proof K as (K0 & LL & CC). pose proof K0 as [R W].
  pose proof LI as LI0. apply (v_link cf tops' lops ENV _ _ _ _ _ _ _ _ _ K) in LI as [M NG].
  pose proof (proj1 (CC i) CI) as [_ [(x0 & y0 & M0 & T0) NQ]]. rewrite M in M0. injection M0 as <- <-.
  assert (MN : a_map a i <> None) by congruence. pose proof (w_range cf _ _ _ _ i R MN) as RI. assert (I0 : i <> 0) by lia.
  assert (REL : forall s t, u_relink tops' st i os ot s t = Panic).
  { intros s t. assert (PS : negb (os =? 0) = true <-> P i).
    { rewrite negb_true_iff, N.eqb_neq. split.
      - intros N. destruct (w_inP cf _ _ _ _ _ R (proj1 RI)) as [[_ NP]|[_ K']]; auto. exfalso. apply NG. split; auto. exists os, ot. auto.
      - intros N. apply (wr_P _ _ _ _ _ R) in N as (x & y & K1 & K2). congruence. }
    destruct (src_detach tops' (proj1 (proj2 ENV)) st P i (negb (os =? 0)) (w_header cf _ _ _ _ R) (wr_src _ _ _ _ _ R) I0 PS) as (c1 & E1 & _).
    { intros NB j Pj KE. pose proof (wr_P _ _ _ _ _ R _ Pj) as (js & jt & J1 & J2).
      unfold key_src in KE. rewrite (wr_data _ _ _ _ _ R _ _ J1), (wr_data _ _ _ _ _ R _ _ M) in KE. cbn [fst snd] in KE. injection KE as -> ->.
      destruct SE as [SE|SE].
      - unfold is_link in SE, LI0. fold U in LI0. rewrite SE in LI0. injection LI0 as <- <-. contradiction.
      - apply (SE j os ot); apply (v_link cf tops' lops ENV _ _ _ _ _ _ _ _ _ K); (split; [auto|]); auto.
        intros [_ G]. auto. }
    unfold u_relink. rewrite E1. cbn [obind]. destruct (N.eqb_spec ot 0) as [|_]; [contradiction|]. cbn [negb when].
    unfold u_detach_target. change (u_header (set_src st c1)) with (u_header st). rewrite (w_header cf _ _ _ _ R). cbn [obind t_detach tops' checked_tree].
    cbn [u_tgt set_src]. destruct (wr_tgt _ _ _ _ _ R) as [_ Z]. rewrite (Z i I0 NQ). reflexivity. }
  assert (GET : u_get_link cf st i = Val (Some (mkLink i os ot))) by exact LI0.
  assert (UP : forall s t H (h : whandler H) x, u_update cf tops' h [i] [i; s; t] st x = Panic).
  { intros s t H h x. unfold u_update. change (qget [i] 0) with (Val i). change (qget [i; s; t] 1) with (Val s). change (qget [i; s; t] 2) with (Val t).
    cbn [obind]. rewrite GET. cbn [obind l_source l_target]. now rewrite REL. }
  split; [exact UP|]. intros H h x. cbn [li_delete unit_links U]. unfold u_delete. change (qget [i] 0) with (Val i).
  cbn [obind]. rewrite GET. cbn [obind]. now rewrite UP.
Qed.

(** ** Examples *)
Lemma life_small cf tops lops st L C j : unit_env cf tops lops -> life cf tops lops st L C ->
  linked (unit_links cf tops lops) st j \/ (exists s t g, L j s t g) -> 1 <= j <= h_alloc st.
Proof.
  intros ENV HL K. destruct (life_inv cf tops lops ENV st L C HL) as (a & P & Q & V). pose proof V as ([R _] & _).
  apply (v_dom cf tops lops ENV _ _ _ _ _ _ _ V) in K. rewrite (wr_alloc _ _ _ _ _ R). now apply (w_range cf _ _ _ _ _ R).
Qed.
Fixpoint pairs_of (U : LinksI ust) (st : ust) (n : nat) : list (N * (N * N)) :=
  match n with
  | O => []
  | S n' => match li_get U st (N.of_nat n) with Val (Some lk) => [(N.of_nat n, (l_source lk, l_target lk))] | _ => [] end ++ pairs_of U st n'
  end.
Lemma pairs_of_in U st : forall n i s t, is_link U st i s t -> 1 <= i <= N.of_nat n -> In (i, (s, t)) (pairs_of U st n).
Proof.
  induction n as [|n IH]; intros i s t LI R; [lia|]. cbn [pairs_of]. apply in_or_app. destruct (N.eq_dec i (N.of_nat (S n))) as [->|NE].
  - left. unfold is_link in LI. rewrite LI. now left.
  - right. apply IH; auto. lia.
Qed.
(** Links 1: 1->1, 2: 1->3, 3: 1->2 and 4: 4->4; the first three alone. *)
Definition ex_four : list cmd := [Cr; Cr; Cr; Cr; Up 1 1 1; Up 2 1 3; Up 3 1 2; Up 4 4 4].
Definition ex_three : list cmd := [Cr; Cr; Cr; Up 1 1 1; Up 2 1 3; Up 3 1 2].
Definition ex_run (tops : tree_ops) (lops : list_ops) (l : list cmd) : ust :=
  match run (unit_links ex_cf tops lops) l ex_start with Some st => st | None => ex_start end.
Definition ex_stop (tops : tree_ops) (st : ust) (i os ot s t : N) (k : nat) : ust :=
  match run_steps (firstn k (update_steps tops i os ot s t)) st with Val s => s | _ => ex_start end.
Definition ex_again (st : ust) : ust :=
  match u_open ex_cf (u_persist st (fun _ _ => true)) with Val (Ok s) => s | _ => ex_start end.

Lemma ex_life tops lops l : unit_env ex_cf tops lops -> acheck a_empty l = true ->
  match run (unit_links ex_cf tops lops) l ex_start with Some _ => true | None => false end = true ->
  life ex_cf tops lops (ex_run tops lops l) (fun _ _ _ _ => False) (fun _ => False).
Proof.
  intros ENV A E. unfold ex_run. destruct (run (unit_links ex_cf tops lops) l ex_start) as [st'|] eqn:ER; [|discriminate].
  assert (S0 : u_start ex_cf ex_start).
  { exists (fun _ _ => true). unfold ex_start. vm_compute. reflexivity. }
  destruct (run_ok ex_cf tops lops ENV l ex_start a_empty []) with (st' := st') as (d & HH & _); auto.
  - now apply hist_start.
  - exact (u_start_inv _ _ _ ENV _ S0).
  - exact (life_start _ _ _ _ d HH).
Qed.
Lemma ex_sep tops lops st L C i s t : unit_env ex_cf tops lops -> life ex_cf tops lops st L C ->
  is_link (unit_links ex_cf tops lops) st i s t ->
  forallb (fun p => negb ((fst (snd p) =? s) && (snd (snd p) =? t)) || (fst p =? i)) (pairs_of (unit_links ex_cf tops lops) st (N.to_nat (h_alloc st))) = true ->
  separable (unit_links ex_cf tops lops) st i.
Proof.
  intros ENV HL LI F. right. intros j x y L1 L2.
  assert (E : (x, y) = (s, t)) by (unfold is_link in *; congruence). injection E as -> ->.
  pose proof (life_small _ _ _ _ _ _ j ENV HL (or_introl (ex_intro _ s (ex_intro _ t L2)))) as B.
  rewrite forallb_forall in F. specialize (F _ (pairs_of_in _ _ (N.to_nat (h_alloc st)) _ _ _ L2 ltac:(lia))).
  cbn [fst snd] in F. rewrite !N.eqb_refl in F. cbn [andb negb orb] in F. now apply N.eqb_eq.
Qed.

(** The list and tree operations of the examples, any of the two lists and any of the two trees. *)
Definition ex_lost (j x y : N) (g : bool) : Prop := False \/ (j = 2 /\ detached_point (After 1) 1 2 /\ (x, y) = (1, 3) /\ g = true).
Definition ex_after (tops : tree_ops) (lops : list_ops) (l : list cmd) : ust := ex_again (ex_stop tops (ex_run tops lops l) 2 1 3 2 2 1).
Lemma ex_after_life tops lops l : unit_env ex_cf tops lops -> acheck a_empty l = true ->
  match run (unit_links ex_cf tops lops) l ex_start with Some _ => true | None => false end = true ->
  let st := ex_run tops lops l in
  is_link (unit_links ex_cf tops lops) st 2 1 3 -> h_alloc st < 8 ->
  forallb (fun p => negb ((fst (snd p) =? 1) && (snd (snd p) =? 3)) || (fst p =? 2)) (pairs_of (unit_links ex_cf tops lops) st (N.to_nat (h_alloc st))) = true ->
  run_steps (firstn 1 (update_steps tops 2 1 3 2 2)) st = Val (ex_stop tops st 2 1 3 2 2 1) ->
  u_open ex_cf (u_persist (ex_stop tops st 2 1 3 2 2 1) (fun _ _ => true)) = Val (Ok (ex_after tops lops l)) ->
  life ex_cf tops lops (ex_after tops lops l) ex_lost (fun j => False \/ (j = 2 /\ False)).
Proof.
  intros ENV A E st LI HA F ST OP. pose proof (ex_life tops lops l ENV A E) as HL. fold st in HL.
  refine (life_stop ex_cf tops lops st _ _ 2 1 3 2 2 (After 1) _ _ _ HL _ LI _ ST OP).
  - exact HA.
  - split; [exact (ex_sep _ _ _ _ _ _ _ _ ENV HL LI F)|]. split; auto.
Qed.
(** The deletion of a link that is in both trees, with no other link or lost link of the same
    pair, can change another link: what is asked above of the links that remain is needed. *)
Lemma L_C82_refuted : exists st L C st',
  life ex_cf ref_tree_ops ref_list_ops st L C /\ may_change ex_cf ref_tree_ops ref_list_ops st L C 3 /\
  is_link ex_U st 3 1 2 /\ is_link ex_U st 1 1 1 /\
  d_delete ex_U 3 st = Val (st', Ok 0) /\ is_link ex_U st' 1 1 3.
Proof.
  assert (HL : life ex_cf ref_tree_ops ref_list_ops (ex_after ref_tree_ops ref_list_ops ex_three) ex_lost (fun j => False \/ (j = 2 /\ False))).
  { apply ex_after_life; try exact ex_env; try (vm_compute; reflexivity). }
  exists (ex_after ref_tree_ops ref_list_ops ex_three), ex_lost, (fun j => False \/ (j = 2 /\ False)).
  exists (match d_delete ex_U 3 (ex_after ref_tree_ops ref_list_ops ex_three) with Val (s, _) => s | _ => ex_start end).
  split; [exact HL|]. split.
  { split; [|split; [tauto|]].
    - apply (ex_sep _ _ _ _ _ 3 1 2 ex_env HL); unfold is_link; vm_compute; reflexivity.
    - intros l s t [[]|(_ & _ & E & _)] LI. injection E as -> ->.
      assert (X : is_link ex_U (ex_after ref_tree_ops ref_list_ops ex_three) 3 1 2) by (unfold is_link; vm_compute; reflexivity).
      unfold is_link in X, LI. change (unit_links ex_cf ref_tree_ops ref_list_ops) with ex_U in LI. rewrite LI in X. discriminate X. }
  split; [unfold is_link; vm_compute; reflexivity|]. split; [unfold is_link; vm_compute; reflexivity|].
  split; [vm_compute; reflexivity|unfold is_link; vm_compute; reflexivity].
Qed.
(** The same store with lists that refuse such a request is one of the stores of
    [L_C82_uncovered]. *)
Lemma L_C82_uncovered_nonvacuous : exists st L C,
  let lops' := checked_list ref_list_ops in let U := unit_links ex_cf ref_tree_ops lops' in
  life ex_cf ref_tree_ops lops' st L C /\ linked U st 3 /\ may_change ex_cf ref_tree_ops lops' st L C 3 /\ 3 = h_alloc st /\
  (exists s t g, L 2 s t g) /\ (forall k, 2 < k -> k <> 3 -> no_link U st k /\ forall s t g, ~ L k s t g).
Proof.
  set (lops' := checked_list ref_list_ops).
  assert (ENV : unit_env ex_cf ref_tree_ops lops').
  { destruct ex_env as (E1 & E2 & E3). split; [exact E1|]. split; [exact E2|apply checked_list_ok; exact E3]. }
  assert (HL : life ex_cf ref_tree_ops lops' (ex_after ref_tree_ops lops' ex_three) ex_lost (fun j => False \/ (j = 2 /\ False))).
  { apply ex_after_life; try exact ENV; try (vm_compute; reflexivity). }
  exists (ex_after ref_tree_ops lops' ex_three), ex_lost, (fun j => False \/ (j = 2 /\ False)). cbv zeta.
  assert (L3 : is_link (unit_links ex_cf ref_tree_ops lops') (ex_after ref_tree_ops lops' ex_three) 3 1 2) by (unfold is_link; vm_compute; reflexivity).
  split; [exact HL|]. split; [exists 1, 2; exact L3|]. split.
  { split; [|split; [tauto|]].
    - apply (ex_sep _ _ _ _ _ 3 1 2 ENV HL L3). vm_compute; reflexivity.
    - intros l s t [[]|(_ & _ & E & _)] LI. injection E as -> ->. unfold is_link in L3, LI. fold lops' in LI. rewrite LI in L3. discriminate L3. }
  split; [vm_compute; reflexivity|].
  split. { exists 1, 3, true. right. repeat split. discriminate. }
  intros k K1 K2. split.
  - pose proof (life_inv ex_cf ref_tree_ops lops' ENV _ _ _ HL) as (a & P & Q & V). apply (v_none ex_cf ref_tree_ops lops' ENV _ _ _ _ _ _ _ V).
    left. destruct (a_map a k) eqn:M; auto. exfalso. assert (MN : a_map a k <> None) by congruence.
    apply (v_dom ex_cf ref_tree_ops lops' ENV _ _ _ _ _ _ _ V) in MN. apply (life_small _ _ _ _ _ _ k ENV HL) in MN.
    assert (HA : h_alloc (ex_after ref_tree_ops lops' ex_three) = 3) by (vm_compute; reflexivity). rewrite HA in MN. lia.
  - intros s t g [[]|(E & _)]. lia.
Qed.
(** Link 3 of four, changed from 1->2 to 3->3 up to its last write, after link 2 was lost. *)
Definition ex_twice (tops : tree_ops) (lops : list_ops) : ust := ex_again (ex_stop tops (ex_after tops lops ex_four) 3 1 2 3 3 4).
Definition ex_lost2 (j x y : N) (g : bool) : Prop :=
  ex_lost j x y g \/ (j = 3 /\ detached_point (After 4) 1 3 /\ (x, y) = (3, 3) /\ g = false).
Definition ex_stray2 (j : N) : Prop := (False \/ (j = 2 /\ False)) \/ (j = 3 /\ 3 <> 0).
Lemma L_C82_nonvacuous :
  (exists st L C, life ex_cf ref_tree_ops ref_list_ops st L C /\ L 2 1 3 true /\ C 3 /\ is_link ex_U st 3 3 3 /\
     is_link ex_U st 4 4 4 /\ may_change ex_cf ref_tree_ops ref_list_ops st L C 4 /\ is_link ex_U st 1 1 1 /\
     may_change ex_cf ref_tree_ops ref_list_ops st L C 1 /\ covered ex_cf ref_tree_ops ref_list_ops st L 4 /\
     in_step ex_cf st /\ no_link ex_U st 2) /\
  exists st L C, let tops' := checked_tree ref_tree_ops in let U := unit_links ex_cf tops' ref_list_ops in
    life ex_cf tops' ref_list_ops st L C /\ linked U st 3 /\ separable U st 3 /\ C 3.
Proof.
  assert (G : forall tops, unit_env ex_cf tops ref_list_ops ->
    match run (unit_links ex_cf tops ref_list_ops) ex_four ex_start with Some _ => true | None => false end = true ->
    let U := unit_links ex_cf tops ref_list_ops in
    let st := ex_run tops ref_list_ops ex_four in let st1 := ex_after tops ref_list_ops ex_four in
    is_link U st 2 1 3 -> h_alloc st < 8 ->
    forallb (fun p => negb ((fst (snd p) =? 1) && (snd (snd p) =? 3)) || (fst p =? 2)) (pairs_of U st (N.to_nat (h_alloc st))) = true ->
    run_steps (firstn 1 (update_steps tops 2 1 3 2 2)) st = Val (ex_stop tops st 2 1 3 2 2 1) ->
    u_open ex_cf (u_persist (ex_stop tops st 2 1 3 2 2 1) (fun _ _ => true)) = Val (Ok st1) ->
    is_link U st1 3 1 2 -> h_alloc st1 < 8 ->
    forallb (fun p => negb ((fst (snd p) =? 1) && (snd (snd p) =? 2)) || (fst p =? 3)) (pairs_of U st1 (N.to_nat (h_alloc st1))) = true ->
    run_steps (firstn 4 (update_steps tops 3 1 2 3 3)) st1 = Val (ex_stop tops st1 3 1 2 3 3 4) ->
    u_open ex_cf (u_persist (ex_stop tops st1 3 1 2 3 3 4) (fun _ _ => true)) = Val (Ok (ex_twice tops ref_list_ops)) ->
    life ex_cf tops ref_list_ops (ex_twice tops ref_list_ops) ex_lost2 ex_stray2).
  { intros tops ENV RU U st st1 LI HA FA ST OP LI1 HA1 FA1 ST1 OP1.
    assert (HL : life ex_cf tops ref_list_ops st1 ex_lost (fun j => False \/ (j = 2 /\ False))).
    { apply ex_after_life; auto; try (vm_compute; reflexivity). }
    refine (life_stop ex_cf tops ref_list_ops st1 _ _ 3 1 2 3 3 (After 4) _ _ _ HL _ LI1 _ ST1 OP1).
    - exact HA1.
    - split; [exact (ex_sep _ _ _ _ _ _ _ _ ENV HL LI1 FA1)|]. split; [tauto|].
      intros l s t [[]|(_ & _ & E & _)] LI'. injection E as -> ->. unfold is_link in LI1, LI'. fold U in LI'. rewrite LI' in LI1. discriminate LI1. }
  split.
  - assert (HL : life ex_cf ref_tree_ops ref_list_ops (ex_twice ref_tree_ops ref_list_ops) ex_lost2 ex_stray2).
    { apply G; try exact ex_env; try (unfold is_link; vm_compute; reflexivity). }
    exists (ex_twice ref_tree_ops ref_list_ops), ex_lost2, ex_stray2.
    assert (L4 : is_link ex_U (ex_twice ref_tree_ops ref_list_ops) 4 4 4) by (unfold is_link; vm_compute; reflexivity).
    assert (L1 : is_link ex_U (ex_twice ref_tree_ops ref_list_ops) 1 1 1) by (unfold is_link; vm_compute; reflexivity).
    assert (L3 : is_link ex_U (ex_twice ref_tree_ops ref_list_ops) 3 3 3) by (unfold is_link; vm_compute; reflexivity).
    assert (MC : forall i s t, is_link ex_U (ex_twice ref_tree_ops ref_list_ops) i s t -> i <> 3 -> (s, t) <> (1, 3) ->
      separable ex_U (ex_twice ref_tree_ops ref_list_ops) i -> may_change ex_cf ref_tree_ops ref_list_ops (ex_twice ref_tree_ops ref_list_ops) ex_lost2 ex_stray2 i).
    { intros i s t LI I3 NE SE. split; [exact SE|]. split; [unfold ex_stray2; tauto|].
      intros l x y K LI'. assert (E2 : (x, y) = (s, t)) by (unfold is_link in LI, LI'; change (unit_links ex_cf ref_tree_ops ref_list_ops) with ex_U in LI'; congruence).
      destruct K as [[[]|(_ & _ & E & _)]|(_ & _ & _ & E)]; congruence. }
    split; [exact HL|]. split; [left; right; repeat split; discriminate|]. split; [right; split; [reflexivity|discriminate]|].
    split; [exact L3|]. split; [exact L4|]. split.
    { apply (MC _ _ _ L4); [discriminate|discriminate|]. apply (ex_sep _ _ _ _ _ 4 4 4 ex_env HL L4). vm_compute; reflexivity. }
    split; [exact L1|]. split.
    { apply (MC _ _ _ L1); [discriminate|discriminate|]. apply (ex_sep _ _ _ _ _ 1 1 1 ex_env HL L1). vm_compute; reflexivity. }
    split. { intros l s t g K LT. exists 3. split; [|split; [discriminate|left; exists 3, 3; exact L3]].
      destruct K as [[[]|(-> & _)]|(_ & [] & _)]. lia. }
    split; [unfold in_step; vm_compute; reflexivity|].
    unfold no_link. vm_compute; reflexivity.
  - assert (ENV : unit_env ex_cf (checked_tree ref_tree_ops) ref_list_ops).
    { destruct ex_env as (E1 & E2 & E3). split; [exact E1|]. split; [apply checked_tree_ok; exact E2|exact E3]. }
    assert (HL : life ex_cf (checked_tree ref_tree_ops) ref_list_ops (ex_twice (checked_tree ref_tree_ops) ref_list_ops) ex_lost2 ex_stray2).
    { apply G; try exact ENV; try (unfold is_link; vm_compute; reflexivity). }
    assert (L3 : is_link (unit_links ex_cf (checked_tree ref_tree_ops) ref_list_ops) (ex_twice (checked_tree ref_tree_ops) ref_list_ops) 3 3 3) by (unfold is_link; vm_compute; reflexivity).
    exists (ex_twice (checked_tree ref_tree_ops) ref_list_ops), ex_lost2, ex_stray2. cbv zeta.
    split; [exact HL|]. split; [exists 3, 3; exact L3|]. split.
    + apply (ex_sep _ _ _ _ _ 3 3 3 ENV HL L3). vm_compute; reflexivity.
    + right. split; [reflexivity|discriminate].
Qed.
(** Links 1: 1->1, 2: 1->3, 3: 1->2 and 5: 5->5, slot 4 free; the update of link 2 was
    interrupted, then the deletion of link 5, before and within the first round of its loop. *)
Definition ex_five : list cmd := [Cr; Cr; Cr; Cr; Cr; Up 1 1 1; Up 2 1 3; Up 3 1 2; Up 5 5 5; De 4].
Definition ex_low (st : ust) : ust :=
  match u_relink ref_tree_ops st 5 5 5 0 0 with Val s => set_alloc s (h_alloc s - 1) | _ => ex_start end.
Definition ex_low_det (st : ust) : ust :=
  match u_unused_detach ref_list_ops (ex_low st) 4 with Val s => s | _ => ex_start end.
Lemma L_C82_stopped_nonvacuous : exists st L C,
  life ex_cf ref_tree_ops ref_list_ops st L C /\ is_link ex_U st 5 5 5 /\ may_change ex_cf ref_tree_ops ref_list_ops st L C 5 /\
  covered ex_cf ref_tree_ops ref_list_ops st L 5 /\ L 2 1 3 true /\ no_link ex_U st 4 /\
  (exists st1 orc st', delete_at ref_tree_ops ref_list_ops st 5 5 5 (Trimming 0) st1 /\ in_step ex_cf st1 /\
     u_open ex_cf (u_persist st1 orc) = Val (Ok st') /\ h_alloc st' = 4 /\ no_link ex_U st' 4) /\
  (exists st1 orc st', delete_at ref_tree_ops ref_list_ops st 5 5 5 (Detaching 0) st1 /\ in_step ex_cf st1 /\
     u_open ex_cf (u_persist st1 orc) = Val (Ok st') /\ is_link ex_U st' 4 0 0) /\
  exists st1 orc st', create_point ex_cf ref_list_ops st st1 /\ in_step ex_cf st1 /\
    u_open ex_cf (u_persist st1 orc) = Val (Ok st') /\ is_link ex_U st' 4 0 0.
Proof.
  set (st := ex_after ref_tree_ops ref_list_ops ex_five).
  assert (HL : life ex_cf ref_tree_ops ref_list_ops st ex_lost (fun j => False \/ (j = 2 /\ False))).
  { apply ex_after_life; try exact ex_env; try (vm_compute; reflexivity). }
  exists st, ex_lost, (fun j => False \/ (j = 2 /\ False)).
  assert (L5 : is_link ex_U st 5 5 5) by (unfold is_link; vm_compute; reflexivity).
  assert (L3 : is_link ex_U st 3 1 2) by (unfold is_link; vm_compute; reflexivity).
  split; [exact HL|]. split; [exact L5|]. split.
  { split; [|split; [tauto|]].
    - apply (ex_sep _ _ _ _ _ 5 5 5 ex_env HL L5). vm_compute; reflexivity.
    - intros l s t [[]|(_ & _ & E & _)] LI. injection E as -> ->. unfold is_link in L5, LI.
      change (unit_links ex_cf ref_tree_ops ref_list_ops) with ex_U in LI. rewrite LI in L5. discriminate L5. }
  split. { intros l s t g [[]|(-> & _)] _. exists 3. split; [lia|]. split; [lia|]. left. exists 1, 2. exact L3. }
  split. { right. repeat split. discriminate. }
  split; [unfold no_link; vm_compute; reflexivity|]. split; [|split].
  - exists (ex_low st), (fun _ _ => true), (ex_again (ex_low st)). split.
    { exists (match u_relink ref_tree_ops st 5 5 5 0 0 with Val s => s | _ => ex_start end).
      split; [vm_compute; reflexivity|]. split; [vm_compute; reflexivity|]. vm_compute; reflexivity. }
    split; [unfold in_step; vm_compute; reflexivity|]. split; [vm_compute; reflexivity|].
    split; [vm_compute; reflexivity|unfold no_link; vm_compute; reflexivity].
  - exists (ex_low_det st), (fun _ _ => true), (ex_again (ex_low_det st)). split.
    { exists (match u_relink ref_tree_ops st 5 5 5 0 0 with Val s => s | _ => ex_start end).
      split; [vm_compute; reflexivity|]. split; [vm_compute; reflexivity|]. exists (ex_low st).
      split; [vm_compute; reflexivity|]. split; [vm_compute; reflexivity|]. split; vm_compute; reflexivity. }
    split; [unfold in_step; vm_compute; reflexivity|]. split; [vm_compute; reflexivity|unfold is_link; vm_compute; reflexivity].
  - set (st1 := match u_create ex_cf ref_list_ops (fun (u : unit) _ _ => (u, Continue)) [] st tt with Val (s, _, _) => s | _ => ex_start end).
    exists st1, (fun _ _ => true), (ex_again st1). split.
    { apply (CP_done ex_cf ref_list_ops st unit (fun u _ _ => (u, Continue)) [] tt st1 tt (Ok Continue)). vm_compute; reflexivity. }
    split; [unfold in_step; vm_compute; reflexivity|]. split; [vm_compute; reflexivity|unfold is_link; vm_compute; reflexivity].
Qed.
