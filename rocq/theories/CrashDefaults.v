(** Proofs of the claims about the default methods on stores that are used on after interrupted
    calls, as in AfterCrash.v and SplitAfterCrash.v (C87). *)
From Coq Require Import NArith List Bool Lia Permutation Sorted.
From Verif Require Import Base Trees Lists TreeInv Spec Iface UnitModel UnitInv UnitOps UnitLinks LinkModel SplitModel Forest
  SplitInv SplitReads SplitOps SplitWrites SplitLinks Doublets DoubletsOK Obs Hist Claims UnitHist TreeImpl SplitHist
  Crash CrashWrites CrashClaims Scars SplitCrash SplitCrashClaims SplitScars Decorators GoodStore DecoratorClaims Stacks.
From Verif Require AfterCrash SplitLife SplitFree SplitAfterCrash.
Import AfterCrash.
Import SplitFree(but, in_but, but_out, but_in, reckoned).
Import SplitAfterCrash(clife, cl_step, cs_update, clife_inv, c_range, c_linked, c_link, may_update, Build_may_update).
Import ListNotations.
Open Scope N_scope.

(** ** Usages, from what the two queries visit *)
Section G.
  Variable cf : cfg.
  Context {S : Type}.
  Variable I : LinksI S.

  (** 1 if the link [i] refers to itself with the end [v], yet is not among the links found. *)
  Definition unfound (i v : N) (L : list link) : N :=
    if (i =? v) && negb (existsb (fun l => l_index l =? i) L) then 1 else 0.

  Lemma sub_self i v L : NoDup L -> (forall l k, In l L -> In k L -> l_index l = i -> l_index k = i -> l = k) ->
    (forall l, In l L -> l_index l = i -> i = v) ->
    forall A (k : N -> out A),
    (let* us := (if i =? v then csub (N.of_nat (length L)) 1 else Val (N.of_nat (length L))) in k us) =
    (if N.of_nat (length (but i L)) <? unfound i v L then Panic else k (N.of_nat (length (but i L)) - unfound i v L)).
  Proof.
    intros ND ONE OWN A k. unfold unfound. destruct (N.eqb_spec i v) as [<-|NE]; cbn [andb].
    - destruct (existsb (fun l => l_index l =? i) L) eqn:EX; cbn [negb].
      + apply existsb_exists in EX as (l & IL & E). apply N.eqb_eq in E. pose proof (but_in l L ND IL) as X. rewrite E in X.
        rewrite X by (intros j J EJ; apply ONE; auto). rewrite csub_ok by lia. cbn [obind].
        replace (N.of_nat (Datatypes.S (length (but i L))) - 1) with (N.of_nat (length (but i L)) - 0) by lia.
        destruct (N.ltb_spec (N.of_nat (length (but i L))) 0); [lia|reflexivity].
      + assert (E : but i L = L).
        { apply but_out. intros l IL E. assert (X : existsb (fun l => l_index l =? i) L = true); [|congruence].
          apply existsb_exists. exists l. split; auto. now apply N.eqb_eq. }
        rewrite E. unfold csub. destruct (N.leb_spec 1 (N.of_nat (length L))); destruct (N.ltb_spec (N.of_nat (length L)) 1); try lia; reflexivity.
    - assert (E : but i L = L) by (apply but_out; intros l IL E; apply NE; eauto).
      rewrite E. cbn [obind]. replace (N.of_nat (length L) - 0) with (N.of_nat (length L)) by lia.
      destruct (N.ltb_spec (N.of_nat (length L)) 0); [lia|reflexivity].
  Qed.

  Lemma usages_of st i s t L1 L2 : cfg_room cf -> is_link I st i s t ->
    visits I st [c_any cf; i; c_any cf] L1 -> visits I st [c_any cf; c_any cf; i] L2 ->
    NoDup L1 -> NoDup L2 -> N.of_nat (length L1) <= c_iend cf -> N.of_nat (length L2) <= c_iend cf ->
    (forall l, In l L1 -> l_index l = i -> l = mkLink i s t /\ i = s) ->
    (forall l, In l L2 -> l_index l = i -> l = mkLink i s t /\ i = t) ->
    let n := reckoned (N.of_nat (length (but i L1))) (N.of_nat (length (but i L2))) (unfound i s L1) (unfound i t L2) in
    d_count_usages cf I st i = (let* n := n in Val (Ok n)) /\
    d_has_usages cf I st i = (let* n := n in Val (negb (n =? 0))) /\
    d_usages cf I st i = (let* _ := n in Val (Ok (map l_index (but i L1 ++ but i L2)))).
  Proof.
    intros RM LI V1 V2 ND1 ND2 B1 B2 O1 O2. pose proof (room_dbl _ RM) as DB.
    assert (M1 : N.of_nat (length (but i L1)) <= c_iend cf) by (pose proof (len_filter_le (fun l => negb (l_index l =? i)) L1); unfold but; lia).
    assert (M2 : N.of_nat (length (but i L2)) <= c_iend cf) by (pose proof (len_filter_le (fun l => negb (l_index l =? i)) L2); unfold but; lia).
    pose proof (sub_self i s L1 ND1) as X1. pose proof (sub_self i t L2 ND2) as X2.
    assert (CU : d_count_usages cf I st i =
      (let* n := reckoned (N.of_nat (length (but i L1))) (N.of_nat (length (but i L2))) (unfound i s L1) (unfound i t L2) in Val (Ok n))).
    { unfold d_count_usages, d_try_get_link, d_count_by. unfold is_link in LI. rewrite LI. cbn [obind l_source l_target].
      rewrite (proj2 V1). cbn [obind]. rewrite X1.
      2: intros l k J1 J2 E1 E2; destruct (O1 l J1 E1), (O1 k J2 E2); congruence.
      2: intros l J E; now destruct (O1 l J E).
      unfold reckoned. destruct (N.of_nat (length (but i L1)) <? unfound i s L1); cbn [orb]; [reflexivity|].
      rewrite (proj2 V2). cbn [obind]. rewrite X2.
      2: intros l k J1 J2 E1 E2; destruct (O2 l J1 E1), (O2 k J2 E2); congruence.
      2: intros l J E; now destruct (O2 l J E).
      destruct (N.of_nat (length (but i L2)) <? unfound i t L2); [reflexivity|]. rewrite cadd_ok by lia. reflexivity. }
    cbv zeta. split; [exact CU|]. split; [unfold d_has_usages; rewrite CU|unfold d_usages; rewrite CU]; unfold reckoned;
      destruct ((N.of_nat (length (but i L1)) <? unfound i s L1) || (N.of_nat (length (but i L2)) <? unfound i t L2)); try reflexivity.
    cbn [obind].
    rewrite (d_each_by_ok _ _ _ _ _ _ _ _ V1), (urun_filter (fun k => negb (l_index k =? i)) l_index). cbn [obind app].
    rewrite (d_each_by_ok _ _ _ _ _ _ _ _ V2), (urun_filter (fun k => negb (l_index k =? i)) l_index). cbn [obind].
    now rewrite map_app.
  Qed.

  Lemma usages_none st i : no_link I st i ->
    d_usages cf I st i = Val (Err (NotExists i)) /\ d_count_usages cf I st i = Val (Err (NotExists i)) /\
    d_has_usages cf I st i = Val false.
  Proof.
    intros NL. assert (K : d_count_usages cf I st i = Val (Err (NotExists i))).
    { unfold d_count_usages, d_try_get_link. unfold no_link in NL. rewrite NL. reflexivity. }
    unfold d_usages, d_has_usages. rewrite K. auto.
  Qed.

  (** create_link and create_point, from what the creation and the update do. *)
  Lemma point_fail st st1 e : fails_with (fun H h x => li_create I H h [] st x) st1 e -> d_create_point I st = Val (st1, Err e).
  Proof. intros F. unfold d_create_point, d_create, d_create_by, d_create_by_with. rewrite F. reflexivity. Qed.
  Lemma point_once st st1 st2 n b k :
    calls_once (fun H h x => li_create I H h [] st x) st1 nothing (mkLink n 0 0) ->
    calls_once (fun H h x => li_update I H h [n] [n; n; n] st1 x) st2 b k -> d_create_point I st = Val (st2, Ok (l_index k)).
  Proof.
    intros C U. unfold d_create_point, d_create, d_create_by, d_create_by_with. rewrite C. cbn [obind wadapt fst snd rmap l_index].
    exact (du_once _ _ _ _ _ _ _ _ U).
  Qed.

  (** Deleting a list of links, each of which can be deleted when its turn comes. *)
  Inductive gone_by : S -> list link -> S -> Prop :=
  | gb_nil st : gone_by st [] st
  | gb_cons st l L st1 st' : calls_once (fun H h x => li_delete I H h [l_index l] st x) st1 l nothing -> gone_by st1 L st' ->
      gone_by st (l :: L) st'.
  Lemma gone_list st L st' : gone_by st L st' -> forall H B (h : uwrite H B) x,
    d_delete_list I (fuse_call h) (map l_index L) st (x, false) = Val (st', (told h L x, false), Ok tt).
  Proof.
    induction 1 as [st|st l L st1 st' C G IH]; intros H B h x; [reflexivity|].
    cbn [map d_delete_list]. unfold d_delete_with, d_delete_by_with. rewrite C. cbn [obind wadapt fuse_call].
    destruct (h x l nothing) as [x' [b|]] eqn:E; cbn [fst snd rmap obind]; rewrite IH; unfold told; cbn [fold_left]; now rewrite E.
  Qed.
  Lemma gone_stop st L st' j R : gone_by st L st' -> fails_with (fun H h x => li_delete I H h [j] st' x) st' (NotExists j) ->
    forall H B (h : uwrite H B) x,
    d_delete_list I (fuse_call h) (map l_index L ++ j :: R) st (x, false) = Val (st', (told h L x, false), Err (NotExists j)).
  Proof.
    intros G F. induction G as [st|st l L st1 st' C G IH]; intros H B h x.
    - cbn [map app d_delete_list]. unfold d_delete_with, d_delete_by_with. rewrite F. reflexivity.
    - cbn [map app d_delete_list]. unfold d_delete_with, d_delete_by_with. rewrite C. cbn [obind wadapt fuse_call].
      destruct (h x l nothing) as [x' [b|]] eqn:E; cbn [fst snd rmap obind]; rewrite (IH F); unfold told; cbn [fold_left]; now rewrite E.
  Qed.
  Lemma usages_with st i L1 L2 H B (h : uwrite H B) x :
    visits I st [c_any cf; i; c_any cf] L1 -> visits I st [c_any cf; c_any cf; i] L2 ->
    d_delete_usages_with cf I h i st x =
    (let* (st', (x', _), r) := d_delete_list I (fuse_call h) (map l_index (rev (but i L1 ++ but i L2))) st (x, false) in Val (st', x', r)).
  Proof.
    intros V1 V2. unfold d_delete_usages_with, d_count_by. rewrite (proj2 V1), (proj2 V2). cbn [obind].
    rewrite (d_each_by_ok _ _ _ _ _ _ _ _ V1), (urun_filter (fun k => negb (l_index k =? i)) l_index). cbn [obind app].
    rewrite (d_each_by_ok _ _ _ _ _ _ _ _ V2), (urun_filter (fun k => negb (l_index k =? i)) l_index). cbn [obind].
    fold (but i L1). fold (but i L2). now rewrite <- map_app, map_rev.
  Qed.
End G.

(** ** The single-memory store *)
Section U.
  Variables (cf : cfg) (tops : tree_ops) (lops : list_ops).
  Hypothesis ENV : unit_env cf tops lops.
  Notation U := (unit_links cf tops lops).
  Notation life := (life cf tops lops).

  Lemma fresh_may st st1 L C n : life st L C -> creates cf U st st1 n -> (forall s t g, ~ L n s t g) ->
    life st1 L C -> may_change cf tops lops st1 L C n.
  Proof.
    intros HL (C1 & C2 & C3 & C4 & _) NL HL1. split; [now left|].
    destruct (life_inv cf tops lops ENV st1 L C HL1) as (a & P & Q & K). pose proof K as (_ & LL & CC).
    pose proof C3 as M. apply (v_link cf tops lops ENV _ _ _ _ _ _ _ _ _ K) in M as [M _]. split.
    - intros X. apply CC in X as [_ [(x & y & E & N) _]]. congruence.
    - intros l s t X LI. apply LL in X as (E & [(x & y & E2 & N) _] & G).
      apply (v_link cf tops lops ENV _ _ _ _ _ _ _ _ _ K) in LI as [E3 _]. congruence.
  Qed.
  Lemma life_index st L C i : life st L C -> linked U st i -> 1 <= i <= c_iend cf /\ i <> c_any cf.
  Proof.
    intros HL LI. destruct (life_inv cf tops lops ENV st L C HL) as (a & P & Q & K). pose proof K as ([R _] & _).
    assert (X : a_map a i <> None) by (apply (v_dom cf tops lops ENV _ _ _ _ _ _ _ K); auto).
    apply (w_range cf _ _ _ _ _ R) in X. pose proof (wr_iend _ _ _ _ _ R). pose proof (ok_iend _ (e_cf _ _ _ ENV)). lia.
  Qed.
  (** What is at an index is one pair, lost or not. *)
  Lemma one_pair st L C i s t s' t' : life st L C -> is_link U st i s t \/ (exists g, L i s t g) ->
    is_link U st i s' t' \/ (exists g, L i s' t' g) -> s = s' /\ t = t'.
  Proof.
    intros HL X Y. destruct (life_inv cf tops lops ENV st L C HL) as (a & P & Q & K). pose proof K as (_ & LL & _).
    assert (Z : forall s t, is_link U st i s t \/ (exists g, L i s t g) -> a_map a i = Some (s, t)).
    { intros u v [Z|[g Z]]; [now apply (v_link cf tops lops ENV _ _ _ _ _ _ _ _ _ K) in Z|now apply LL in Z]. }
    apply Z in X, Y. rewrite X in Y. now injection Y as -> ->.
  Qed.
  Lemma stray_dec st L C i : life st L C -> linked U st i -> C i \/ ~ C i.
  Proof.
    intros HL LI. destruct (life_inv cf tops lops ENV st L C HL) as (a & P & Q & K). pose proof K as ([R _] & LL & CC).
    destruct LI as (s & t & LI). pose proof LI as M. apply (v_link cf tops lops ENV _ _ _ _ _ _ _ _ _ K) in M as [M G].
    assert (I1 : 1 <= i) by (apply (w_range cf _ _ _ _ i R); congruence).
    rewrite CC. destruct (w_inQ cf _ _ _ _ i R I1) as [[_ NQ]|[_ YQ]].
    - destruct (N.eq_dec t 0) as [->|T0].
      + right. intros [_ [(x & y & E & N) _]]. congruence.
      + left. split; auto. split; auto. exists s, t. auto.
    - right. intros [_ [_ X]]. contradiction.
  Qed.

  (** Deleting several links, none of which covers a lost link alone. *)
  Definition all_covered (st : ust) (L : lost_links) (W : list link) : Prop :=
    forall l s t g, L l s t g -> (exists w, In w W /\ l < l_index w) ->
      exists k, l < k /\ ~ In k (map l_index W) /\ (linked U st k \/ exists x y b, L k x y b).
  Lemma delete_many L C : forall W st, life st L C -> NoDup (map l_index W) ->
    (forall w, In w W -> is_link U st (l_index w) (l_source w) (l_target w) /\ may_change cf tops lops st L C (l_index w)) ->
    all_covered st L W ->
    exists st', gone_by U st W st' /\ life st' L C /\ removed U st st' W.
  Proof.
    induction W as [|w W IH]; intros st HL ND A CV.
    - exists st. split; [constructor|]. split; auto. intros j. destruct (in_dec N.eq_dec j (map l_index [])) as [[]|]. reflexivity.
    - cbn [map] in ND. inversion ND as [|? ? NI ND']; subst. destruct (A w (or_introl eq_refl)) as [LI MC].
      destruct (L_C82_delete_partial cf tops lops st L C (l_index w) _ _ ENV HL LI MC) as (st1 & NL & FR & HL1 & CO).
      { intros l s t g X LT. destruct (CV l s t g X) as (k & K1 & K2 & K3); [exists w; split; [now left|exact LT]|].
        exists k. split; auto. split; auto. intros ->. apply K2. now left. }
      assert (LI1 : forall j x y, is_link U st1 j x y -> is_link U st j x y).
      { intros j x y X. destruct (N.eq_dec j (l_index w)) as [->|NE]; [unfold is_link, no_link in *; congruence|].
        unfold is_link in *. now rewrite <- (FR j NE). }
      destruct (IH st1 HL1 ND') as (st' & G & HL' & RM).
      + intros v IV. destruct (A v (or_intror IV)) as [LV [SE [NC LS]]].
        assert (NE : l_index v <> l_index w) by (intros E; apply NI; rewrite <- E; apply in_map; exact IV).
        split; [unfold is_link in *; now rewrite (FR _ NE)|]. split; [|split; auto].
        * destruct SE as [SE|SE]; [left; unfold is_link in *; now rewrite (FR _ NE)|]. right. intros j s t X Y. eauto.
        * intros l s t X Y. exact (LS l s t X (LI1 _ _ _ Y)).
      + intros l s t g X (v & IV & LT). destruct (CV l s t g X) as (k & K1 & K2 & K3); [exists v; split; [now right|exact LT]|].
        cbn [map In] in K2. exists k. split; auto. split; [tauto|]. destruct K3 as [(x & y & K3)|K3]; auto. left. exists x, y.
        unfold is_link in *. rewrite FR; auto.
      + exists st'. split; [|split; auto].
        * apply gb_cons with st1; auto. destruct w. exact CO.
        * intros j. rewrite (RM j). cbn [map].
          destruct (in_dec N.eq_dec j (map l_index W)) as [I1|I1], (in_dec N.eq_dec j (l_index w :: map l_index W)) as [I2|I2]; auto.
          -- destruct I2. now right.
          -- destruct I2 as [<-|I2]; [exact NL|contradiction].
          -- apply FR. intros ->. apply I2. now left.
  Qed.
End U.

(** create_link and create_point give a new link and change no other, and the index is not that
    of a lost link. *)
Lemma L_C87_unit_create_link cf tops lops st L C s t :
  let U := unit_links cf tops lops in
  unit_env cf tops lops -> cfg_room cf -> life cf tops lops st L C ->
  not_created U st (d_create_link U s t st) \/
  exists st' n, adds cf U st st' n s t /\ (forall x y g, ~ L n x y g) /\ d_create_link U s t st = Val (st', Ok n) /\ life cf tops lops st' L C.
Proof.
  intros U ENV RM HL. destruct (L_C82_create cf tops lops st L C [] ENV RM HL) as [[_ F]|[(st1 & SM & _ & F)|(st1 & n & CR & NL & HL1 & C1)]].
  - left. exists st, (LimitReached (c_iend cf)). split; [intros j; reflexivity|]. split; [exact (cl_create_fail _ _ _ _ _ _ F)|exact F].
  - left. exists st1, AllocFailed. split; auto. split; [exact (cl_create_fail _ _ _ _ _ _ F)|exact F].
  - right. pose proof (fresh_may cf tops lops ENV _ _ _ _ _ HL CR NL HL1) as MC. destruct CR as (R1 & R2 & R3 & R4 & _).
    destruct (L_C82_update cf tops lops st1 L C n 0 0 s t ENV HL1 R3 MC) as (st2 & L2 & F2 & HL2 & U2).
    exists st2, n. split; [|split; [exact NL|split; [exact (cl_once _ _ _ _ _ _ _ _ _ C1 U2)|exact HL2]]].
    split; [exact R1|]. split; [exact R2|]. split; [exact L2|]. intros j J. now rewrite F2, R4.
Qed.
Lemma L_C87_unit_create_point cf tops lops st L C :
  let U := unit_links cf tops lops in
  unit_env cf tops lops -> cfg_room cf -> life cf tops lops st L C ->
  not_created U st (d_create_point U st) \/
  exists st' n, adds cf U st st' n n n /\ (forall x y g, ~ L n x y g) /\ d_create_point U st = Val (st', Ok n) /\ life cf tops lops st' L C.
Proof.
  intros U ENV RM HL. destruct (L_C82_create cf tops lops st L C [] ENV RM HL) as [[_ F]|[(st1 & SM & _ & F)|(st1 & n & CR & NL & HL1 & C1)]].
  - left. exists st, (LimitReached (c_iend cf)). split; [intros j; reflexivity|]. split; [exact (point_fail _ _ _ _ F)|exact F].
  - left. exists st1, AllocFailed. split; auto. split; [exact (point_fail _ _ _ _ F)|exact F].
  - right. pose proof (fresh_may cf tops lops ENV _ _ _ _ _ HL CR NL HL1) as MC. destruct CR as (R1 & R2 & R3 & R4 & _).
    destruct (L_C82_update cf tops lops st1 L C n 0 0 n n ENV HL1 R3 MC) as (st2 & L2 & F2 & HL2 & U2).
    exists st2, n. split; [|split; [exact NL|split; [exact (point_once _ _ _ _ _ _ _ C1 U2)|exact HL2]]].
    split; [exact R1|]. split; [exact R2|]. split; [exact L2|]. intros j J. now rewrite F2, R4.
Qed.
(** get_or_create gives a link that has the pair, and makes a new one only if none has it: a lost
    link is not given out. *)
Lemma L_C87_unit_get_or_create cf tops lops st L C s t :
  let U := unit_links cf tops lops in
  unit_env cf tops lops -> life cf tops lops st L C -> s <> 0 -> s <> c_any cf -> t <> c_any cf ->
  (exists i, is_link U st i s t /\ d_search cf U st s t = Val (Some i) /\ d_get_or_create cf U s t st = Val (st, Ok i)) \/
  ((forall i, ~ is_link U st i s t) /\ d_search cf U st s t = Val None /\ d_get_or_create cf U s t st = d_create_link U s t st).
Proof.
  intros U ENV HL S0 SA TA. destruct (L_C82_search cf tops lops st L C s t ENV HL S0 SA TA) as [(i & LI & E & _)|(NL & E & _)]; fold U in E; [left|right].
  - exists i. assert (X : d_search cf U st s t = Val (Some i)) by (unfold d_search, d_find, d_each_by; rewrite E; reflexivity).
    split; auto. split; auto. unfold d_get_or_create. now rewrite X.
  - assert (X : d_search cf U st s t = Val None) by (unfold d_search, d_find, d_each_by; rewrite E; reflexivity).
    split; auto. split; auto. unfold d_get_or_create. now rewrite X.
Qed.
(** What usages, count_usages and has_usages answer: the links with source [i]; of those with
    target [i], the ones that the tree of targets has; and lost links that it still has.  If
    link [i] has itself as target and is missing from that tree, it is subtracted from the count
    although it was not counted. *)
Lemma L_C87_unit_usages cf tops lops st L C i s t :
  let U := unit_links cf tops lops in
  unit_env cf tops lops -> cfg_room cf -> life cf tops lops st L C -> is_link U st i s t ->
  exists L1 L2 e, NoDup L1 /\ NoDup L2 /\
    (forall l, In l L1 <-> is_link U st (l_index l) (l_source l) (l_target l) /\ l_index l <> i /\ l_source l = i) /\
    (forall l, In l L2 <-> l_index l <> i /\ l_target l = i /\
       ((is_link U st (l_index l) (l_source l) (l_target l) /\ ~ C (l_index l)) \/ L (l_index l) (l_source l) (l_target l) true)) /\
    (e = 1 /\ t = i /\ C i \/ e = 0 /\ (t = i -> ~ C i)) /\
    let n := reckoned (N.of_nat (length L1)) (N.of_nat (length L2)) 0 e in
    d_count_usages cf U st i = (let* n := n in Val (Ok n)) /\
    d_has_usages cf U st i = (let* n := n in Val (negb (n =? 0))) /\
    d_usages cf U st i = (let* _ := n in Val (Ok (map l_index (L1 ++ L2)))).
Proof.
  intros U ENV RM HL LI. assert (LK : linked U st i) by (exists s, t; exact LI).
  destruct (life_index cf tops lops ENV _ _ _ _ HL LK) as [IR IA]. assert (I0 : i <> 0) by lia.
  destruct (L_C82_by_source cf tops lops st L C i ENV HL I0 IA) as (L1 & A1 & A2 & A3 & A4).
  destruct (L_C82_by_target cf tops lops st L C i ENV HL I0 IA) as (L2 & B1 & B2 & B3 & B4).
  pose proof (fun i s t s' t' => one_pair cf tops lops ENV st L C i s t s' t' HL) as ONE.
  assert (X1 : forall l, In l L1 -> is_link U st (l_index l) (l_source l) (l_target l) \/ (exists g, L (l_index l) (l_source l) (l_target l) g)) by (intros l X; apply A2 in X; tauto).
  assert (X2 : forall l, In l L2 -> is_link U st (l_index l) (l_source l) (l_target l) \/ (exists g, L (l_index l) (l_source l) (l_target l) g)).
  { intros l X. apply B2 in X as (_ & [[X _]|X]); eauto. }
  assert (BD : forall V, NoDup V -> (forall l, In l V -> is_link U st (l_index l) (l_source l) (l_target l) \/ (exists g, L (l_index l) (l_source l) (l_target l) g)) ->
    N.of_nat (length V) <= c_iend cf).
  { intros V ND X. apply (life_bound cf tops lops st L C V ENV HL ND).
    - intros l Y. destruct (X l Y) as [Z|[g Z]]; [left; exists (l_source l), (l_target l)|right; exists (l_source l), (l_target l), g]; auto.
    - intros l Y k Z E. apply X in Y, Z. rewrite <- E in Z. destruct (ONE _ _ _ _ _ Y Z). destruct l, k. cbn in *. congruence. }
  assert (SELF : forall l, is_link U st (l_index l) (l_source l) (l_target l) \/ (exists g, L (l_index l) (l_source l) (l_target l) g) ->
    l_index l = i -> l = mkLink i s t).
  { intros l X E. rewrite E in X. destruct (ONE _ _ _ _ _ X (or_introl LI)). destruct l. cbn in *. congruence. }
  destruct (usages_of cf U st i s t L1 L2 RM LI) as (Y1 & Y2 & Y3); auto.
  { split; auto. } { split; auto. }
  { intros l X E. pose proof (SELF l (X1 l X) E) as Z. split; auto. apply A2 in X as [_ X]. subst l. exact (eq_sym X). }
  { intros l X E. pose proof (SELF l (X2 l X) E) as Z. split; auto. apply B2 in X as [X _]. subst l. exact (eq_sym X). }
  assert (E1 : unfound i s L1 = 0).
  { unfold unfound. destruct (N.eqb_spec i s) as [<-|]; [|reflexivity]. cbn [andb].
    assert (E : existsb (fun l => l_index l =? i) L1 = true); [|now rewrite E]. apply existsb_exists. exists (mkLink i i t). split; [|apply N.eqb_refl].
    apply A2. auto. }
  exists (but i L1), (but i L2), (unfound i t L2).
  split; [now apply NoDup_filter|]. split; [now apply NoDup_filter|].
  split; [intros l; rewrite in_but, A2; tauto|]. split; [intros l; rewrite in_but, B2; tauto|].
  split.
  - unfold unfound. destruct (N.eqb_spec i t) as [<-|NE]; cbn [andb]; [|right; split; [reflexivity|congruence]].
    destruct (existsb (fun l => l_index l =? i) L2) eqn:EX; cbn [negb].
    + right. split; auto. intros _. apply existsb_exists in EX as (l & IL & E). apply N.eqb_eq in E.
      pose proof (SELF l (X2 l IL) E) as Z. apply B2 in IL as (_ & [[_ X]|X]); [now rewrite <- E|].
      exfalso. subst l. cbn in X. destruct (L_C82_lost cf tops lops st L C i s i true ENV HL X) as (NL & _). unfold is_link, no_link, U in *. rewrite NL in LI. discriminate LI.
    + left. split; auto. split; auto. destruct (stray_dec cf tops lops ENV st L C i HL LK) as [|NC]; auto. exfalso.
      assert (X : existsb (fun l => l_index l =? i) L2 = true); [|congruence]. apply existsb_exists. exists (mkLink i s i). split; [|apply N.eqb_refl].
      apply B2. split; auto.
  - rewrite E1 in *. auto.
Qed.
Lemma L_C87_unit_usages_missing cf tops lops st L C i :
  let U := unit_links cf tops lops in
  unit_env cf tops lops -> life cf tops lops st L C -> no_link U st i ->
  d_usages cf U st i = Val (Err (NotExists i)) /\ d_count_usages cf U st i = Val (Err (NotExists i)) /\ d_has_usages cf U st i = Val false.
Proof. intros U ENV HL NL. now apply usages_none. Qed.
Lemma is_at {S} (I : LinksI S) st l : li_get I st (l_index l) = Val (Some l) <-> is_link I st (l_index l) (l_source l) (l_target l).
Proof. destruct l. reflexivity. Qed.
Lemma NoDup_map_of {A B} (f : A -> B) : forall V, NoDup V -> (forall l k, In l V -> In k V -> f l = f k -> l = k) -> NoDup (map f V).
Proof.
  induction V as [|v V IH]; intros ND I; [constructor|]. inversion ND as [|? ? NI ND']; subst. cbn [map]. constructor.
  - intros X. apply in_map_iff in X as (k & E & IK). apply NI. assert (k = v); [|now subst]. apply I; [now right|now left|exact E].
  - apply IH; auto. intros l k X Y. apply I; now right.
Qed.
Lemma first_bad {A} (P Q : A -> Prop) : forall V, (forall v, In v V -> P v \/ Q v) -> (exists v, In v V /\ Q v) ->
  exists W j R, V = W ++ j :: R /\ (forall w, In w W -> P w) /\ Q j.
Proof.
  induction V as [|v V IH]; intros D (u & IU & QU); [destruct IU|]. destruct (D v (or_introl eq_refl)) as [PV|QV].
  - destruct IU as [->|IU].
    + exists [], u, V. split; auto. split; auto. intros w [].
    + destruct IH as (W & j & R & -> & A1 & A2); [intros; apply D; now right|eauto|]. exists (v :: W), j, R. split; auto. split; auto.
      intros w [<-|IW]; auto.
  - exists [], v, V. split; auto. split; auto. intros w [].
Qed.

(** delete_usages deletes the users of [i], unless a lost link that the tree of targets still has
    is in the way, or a link that is twice a user. *)
Lemma L_C87_unit_delete_usages_partial cf tops lops st L C i :
  let U := unit_links cf tops lops in
  unit_env cf tops lops -> life cf tops lops st L C -> i <> 0 -> i <> c_any cf ->
  (forall l, user U st i l -> may_change cf tops lops st L C (l_index l)) ->
  (forall l s, L l s i true -> l = i) -> (forall x, x <> i -> ~ is_link U st x i i) ->
  (forall l s t g w, L l s t g -> user U st i w -> l < l_index w ->
     exists k, l < k /\ ((exists x y, is_link U st k x y /\ ~ user U st i (mkLink k x y)) \/ exists x y b, L k x y b)) ->
  exists st' W, life cf tops lops st' L C /\ NoDup W /\ (forall l, In l W <-> user U st i l) /\ removed U st st' W /\
    (forall H B (h : uwrite H B) x, d_delete_usages_with cf U h i st x = Val (st', told h W x, Ok tt)) /\
    d_delete_usages cf U i st = Val (st', Ok tt).
Proof.
  intros U ENV HL I0 IA MC NT NB CV.
  destruct (L_C82_by_source cf tops lops st L C i ENV HL I0 IA) as (L1 & A1 & A2 & A3 & A4).
  destruct (L_C82_by_target cf tops lops st L C i ENV HL I0 IA) as (L2 & B1 & B2 & B3 & B4).
  fold U in A2, A3, A4, B2, B3, B4.
  set (W := rev (but i L1 ++ but i L2)).
  assert (IN : forall l, In l W <-> user U st i l).
  { intros l. unfold W, user. rewrite is_at, <- in_rev, in_app_iff, !in_but, A2, B2. split.
    - intros [[[X Y] Z]|[[Y [[X _]|X]] Z]]; auto. exfalso. rewrite Y in X. exact (Z (NT _ _ X)).
    - intros (X & Z & [Y|Y]); [left; auto|]. right. split; auto. split; auto. left. split; auto.
      destruct (MC l (conj (proj2 (is_at U st l) X) (conj Z (or_intror Y)))) as (_ & NC & _). exact NC. }
  assert (ND : NoDup W).
  { unfold W. apply NoDup_rev. apply NoDup_app_intro; [now apply NoDup_filter|now apply NoDup_filter|].
    intros l X Y. apply in_but in X as [X Z], Y as [Y _]. apply A2 in X as [X1 X2]. apply B2 in Y as [Y1 _].
    apply (NB _ Z). rewrite X2, Y1 in X1. exact X1. }
  assert (NDI : NoDup (map l_index W)).
  { apply NoDup_map_of; auto. intros l k X Y E. apply IN in X as (X & _), Y as (Y & _). rewrite <- E in Y. congruence. }
  destruct (delete_many cf tops lops ENV L C W st HL NDI) as (st' & G & HL' & RM).
  { intros w IW. apply IN in IW. split; [apply is_at, IW|auto]. }
  { intros l s t g X (w & IW & LT). apply IN in IW. destruct (CV l s t g w X IW LT) as (k & K1 & K2). exists k. split; auto.
    assert (NK : forall x y, ~ user U st i (mkLink k x y) -> is_link U st k x y -> ~ In k (map l_index W)).
    { intros x y NU LK IK. apply in_map_iff in IK as (v & <- & IV). apply IN in IV. apply NU. pose proof (proj1 IV) as LV.
      unfold is_link in *. rewrite LV in LK. injection LK as LK. rewrite <- LK. exact IV. }
    destruct K2 as [(x & y & LK & NU)|(x & y & b & LK)].
    - split; [eauto|]. left. exists x, y. exact LK.
    - split; [|right; eauto]. intros IK. apply in_map_iff in IK as (v & <- & IV). apply IN in IV. pose proof (proj1 IV) as LV.
      destruct (L_C82_lost cf tops lops st L C _ x y b ENV HL LK) as (NL & _). unfold is_link, no_link in *. fold U in NL. rewrite NL in LV. discriminate LV. }
  exists st', W. split; auto. split; auto. split; auto. split; auto.
  assert (E : forall H B (h : uwrite H B) x, d_delete_usages_with cf U h i st x = Val (st', told h W x, Ok tt)).
  { intros H B h x. rewrite (usages_with cf U st i L1 L2 H B h x (conj A3 A4) (conj B3 B4)). fold W. rewrite (gone_list U _ _ _ G). reflexivity. }
  split; auto. unfold d_delete_usages. rewrite E. reflexivity.
Qed.
(** With such a lost link in the way the call fails and leaves at least the links that only have
    [i] as source. *)
Lemma L_C87_unit_delete_usages_lost cf tops lops st L C i l0 s0 :
  let U := unit_links cf tops lops in
  unit_env cf tops lops -> life cf tops lops st L C -> i <> 0 -> i <> c_any cf -> L l0 s0 i true -> l0 <> i ->
  (forall l, user U st i l -> l_target l = i -> ~ C (l_index l) -> may_change cf tops lops st L C (l_index l)) ->
  (forall l s t g w, L l s t g -> user U st i w -> l_target w = i -> l < l_index w -> exists k x y b, l < k /\ L k x y b) ->
  exists st' W j s, L j s i true /\ j <> i /\ life cf tops lops st' L C /\ NoDup W /\
    (forall l, In l W -> user U st i l /\ l_target l = i) /\ removed U st st' W /\
    (forall H B (h : uwrite H B) x, d_delete_usages_with cf U h i st x = Val (st', told h W x, Err (NotExists j))) /\
    d_delete_usages cf U i st = Val (st', Err (NotExists j)).
Proof.
  intros U ENV HL I0 IA LO LN MC CV.
  destruct (L_C82_by_source cf tops lops st L C i ENV HL I0 IA) as (L1 & A1 & A2 & A3 & A4).
  destruct (L_C82_by_target cf tops lops st L C i ENV HL I0 IA) as (L2 & B1 & B2 & B3 & B4).
  fold U in A2, A3, A4, B2, B3, B4.
  destruct (first_bad (fun l => (user U st i l /\ l_target l = i) /\ ~ C (l_index l)) (fun l => L (l_index l) (l_source l) i true /\ l_index l <> i) (rev (but i L2)))
    as (W & j & R & E & PW & QJ1 & QJ2).
  { intros l X. apply in_rev, in_but in X as [X Z]. apply B2 in X as (X1 & [[X2 X3]|X2]); [left|right].
    - unfold user. rewrite is_at. repeat split; auto.
    - rewrite X1 in X2. auto. }
  { exists (mkLink l0 s0 i). cbn. split; auto. apply -> in_rev. apply in_but. cbn. split; auto. apply B2. cbn. auto. }
  assert (ND : NoDup W).
  { assert (X : NoDup (W ++ j :: R)) by (rewrite <- E; apply NoDup_rev; now apply NoDup_filter). now apply NoDup_app_inv in X. }
  assert (NDI : NoDup (map l_index W)).
  { apply NoDup_map_of; auto. intros l k X Y EI. apply PW in X as (((X & _) & _) & _), Y as (((Y & _) & _) & _). rewrite <- EI in Y. congruence. }
  destruct (delete_many cf tops lops ENV L C W st HL NDI) as (st' & G & HL' & RM).
  { intros w IW. apply PW in IW as ((X1 & X2) & X3). split; [apply is_at, X1|]. apply MC; auto. }
  { intros l s t g X (w & IW & LT). apply PW in IW as ((X1 & X2) & X3). destruct (CV l s t g w X X1 X2 LT) as (k & x & y & b & K1 & K2).
    exists k. split; auto. split; [|right; eauto]. intros IK. apply in_map_iff in IK as (v & <- & IV). apply PW in IV as (((LV & _) & _) & _).
    destruct (L_C82_lost cf tops lops st L C _ x y b ENV HL K2) as (NL & _). unfold is_link, no_link in *. fold U in NL. rewrite NL in LV. discriminate LV. }
  exists st', W, (l_index j), (l_source j). split; auto. split; auto. split; auto. split; auto. split; [intros l X; now apply PW in X|]. split; auto.
  assert (FL : fails_with (fun H h x => li_delete U H h [l_index j] st' x) st' (NotExists (l_index j))).
  { destruct (L_C82_lost cf tops lops st' L C _ _ _ _ ENV HL' QJ1) as (_ & _ & X). intros H h x. apply X. }
  assert (EE : forall H B (h : uwrite H B) x, d_delete_usages_with cf U h i st x = Val (st', told h W x, Err (NotExists (l_index j)))).
  { intros H B h x. rewrite (usages_with cf U st i L1 L2 H B h x (conj A3 A4) (conj B3 B4)).
    rewrite rev_app_distr, E, <- app_assoc, map_app. cbn [app map]. rewrite (gone_stop U _ _ _ _ _ G FL). reflexivity. }
  split; auto. unfold d_delete_usages. rewrite EE. reflexivity.
Qed.

(** ** The two-memory store *)

(** Where the store looks for a link that refers to [v], once there is a link [n]. *)
Definition home_with (D : stored) (tP : N -> place) (n v : N) : place := if v =? n then Int n else home D tP v.

Section S.
  Variables (cf : cfg) (tops : tree_ops) (lops : list_ops).
  Hypothesis ENV : unit_env cf tops lops.
  Notation S := (split_links cf tops lops).
  Notation clife := (SplitAfterCrash.clife cf tops lops).

  Lemma unplaced st D sP tP n : clife st D sP tP -> D n = None -> sP n = Out /\ tP n = Out.
  Proof.
    intros HL E. destruct (clife_inv cf tops lops ENV _ _ _ _ HL) as (_ & top & fr & R).
    pose proof (sm_sp _ _ _ _ _ R n) as X. pose proof (sm_tp _ _ _ _ _ R n) as Y. unfold psrc, ptgt in *. cbn [a_map] in X, Y. rewrite E in X, Y.
    split; [destruct (sP n)|destruct (tP n)]; auto; exfalso;
      try (destruct X as (? & ? & ? & _); discriminate); try (destruct X as ((? & ?) & _); discriminate);
      try (destruct Y as (? & ? & ? & _); discriminate); try (destruct Y as ((? & ?) & _); discriminate).
  Qed.
  Lemma stored_range st D sP tP n : clife st D sP tP -> D n <> None -> 1 <= n <= c_iend cf /\ n <> c_any cf.
  Proof.
    intros HL E. destruct (clife_inv cf tops lops ENV _ _ _ _ HL) as (_ & top & fr & R).
    destruct (proj1 (sm_dom _ _ _ _ _ R n) E) as [F _]. pose proof (sm_iend _ _ _ _ _ R) as G. cbn [a_top] in F, G.
    pose proof (ok_iend _ (e_cf _ _ _ ENV)). lia.
  Qed.
  (** The new link may be changed, and what the store is then. *)
  Lemma made_life st D sP tP st1 n s t : clife st D sP tP -> D n = None -> clife st1 (upd D n (Some (0, 0))) sP tP ->
    exists st2, (s = 0 \/ t <> 0 -> is_link S st2 n s t) /\ (s <> 0 -> t = 0 -> no_link S st2 n) /\ frame S st1 st2 n /\
      clife st2 (upd D n (Some (s, t))) (upd sP n (home_with D tP n s)) (upd tP n (home_with D tP n t)) /\
      calls_once (fun H h x => li_update S H h [n] [n; s; t] st1 x) st2 (mkLink n 0 0) (mkLink n s t).
  Proof.
    intros HL DN HL1. destruct (unplaced _ _ _ _ n HL DN) as [ES ET].
    assert (N1 : 1 <= n) by (apply (stored_range _ _ _ _ n HL1); rewrite upd_same; discriminate).
    assert (MU : may_update (upd D n (Some (0, 0))) sP tP n 0 0).
    { constructor; auto.
      - apply upd_same.
      - unfold readable. rewrite upd_same. reflexivity.
      - split; intros X; congruence. }
    destruct (SplitAfterCrash.L_C86_update_partial cf tops lops st1 _ sP tP n 0 0 s t ENV HL1 MU) as (st2 & A1 & A2 & A3 & _ & A5).
    exists st2. split; auto. split; auto. split; auto. split; auto.
    assert (HO : forall v, home (upd D n (Some (0, 0))) (upd tP n Out) v = home_with D tP n v).
    { intros v. unfold home, home_with, readable. destruct (N.eqb_spec v n) as [->|NE].
      - rewrite !upd_same. destruct (N.eqb_spec n 0); [lia|reflexivity].
      - rewrite !upd_other by auto. reflexivity. }
    specialize (A5 unit cont tt). destruct (cont tt (mkLink n 0 0) (mkLink n s t)) as [x' f] eqn:EC.
    eapply cl_step; [exact HL1|]. eapply (cs_update _ _ _ _ _ _ _ n 0 0 s t unit cont tt); [exact MU|exact A5| | |].
    - intros j. unfold upd. destruct (j =? n); reflexivity.
    - intros j. now rewrite HO.
    - intros j. now rewrite HO.
  Qed.
End S.

(** create_link gives a new link and changes no other; a link made with a source and no target
    cannot be read afterwards. *)
Lemma L_C87_split_create_link cf tops lops st D sP tP s t :
  let S := split_links cf tops lops in
  unit_env cf tops lops -> cfg_room cf -> clife cf tops lops st D sP tP ->
  not_created S st (d_create_link S s t st) \/
  exists st' n, D n = None /\ 1 <= n <= c_iend cf /\ no_link S st n /\ frame S st st' n /\
    (s = 0 \/ t <> 0 -> adds cf S st st' n s t) /\ (s <> 0 -> t = 0 -> no_link S st' n) /\
    clife cf tops lops st' (upd D n (Some (s, t))) (upd sP n (home_with D tP n s)) (upd tP n (home_with D tP n t)) /\
    d_create_link S s t st = Val (st', Ok n).
Proof.
  intros S ENV RM HL.
  destruct (SplitAfterCrash.L_C86_create cf tops lops st D sP tP [] ENV RM HL) as [[_ F]|[(_ & st1 & SM & _ & F)|(st1 & n & DN & CR & HL1 & C1)]].
  - left. exists st, (LimitReached (c_iend cf)). split; [intros j; reflexivity|]. split; [exact (cl_create_fail _ _ _ _ _ _ F)|exact F].
  - left. exists st1, AllocFailed. split; auto. split; [exact (cl_create_fail _ _ _ _ _ _ F)|exact F].
  - right. destruct CR as (R1 & R2 & R3 & R4 & _).
    destruct (made_life cf tops lops ENV _ _ _ _ st1 n s t HL DN HL1) as (st2 & A1 & A2 & A3 & A4 & A5).
    assert (FR : frame S st st2 n) by (intros j J; unfold S; now rewrite A3, R4).
    exists st2, n. split; auto. split; auto. split; auto. split; auto. split; [intros X; split; auto; split; auto; split; auto|].
    split; auto. split; auto. exact (cl_once _ _ _ _ _ _ _ _ _ C1 A5).
Qed.
Lemma L_C87_split_create_point cf tops lops st D sP tP :
  let S := split_links cf tops lops in
  unit_env cf tops lops -> cfg_room cf -> clife cf tops lops st D sP tP ->
  not_created S st (d_create_point S st) \/
  exists st' n, D n = None /\ adds cf S st st' n n n /\
    clife cf tops lops st' (upd D n (Some (n, n))) (upd sP n (Int n)) (upd tP n (Int n)) /\ d_create_point S st = Val (st', Ok n).
Proof.
  intros S ENV RM HL.
  destruct (SplitAfterCrash.L_C86_create cf tops lops st D sP tP [] ENV RM HL) as [[_ F]|[(_ & st1 & SM & _ & F)|(st1 & n & DN & CR & HL1 & C1)]].
  - left. exists st, (LimitReached (c_iend cf)). split; [intros j; reflexivity|]. split; [exact (point_fail _ _ _ _ F)|exact F].
  - left. exists st1, AllocFailed. split; auto. split; [exact (point_fail _ _ _ _ F)|exact F].
  - right. destruct CR as (R1 & R2 & R3 & R4 & _).
    destruct (made_life cf tops lops ENV _ _ _ _ st1 n n n HL DN HL1) as (st2 & A1 & A2 & A3 & A4 & A5).
    unfold home_with in A4. rewrite N.eqb_refl in A4.
    exists st2, n. split; auto. split; [|split; [exact A4|exact (point_once _ _ _ _ _ _ _ C1 A5)]].
    split; auto. split; auto. split; [apply A1; right; lia|]. intros j J. unfold S. now rewrite A3, R4.
Qed.
(** get_or_create gives the link that the trees of the two ends have, makes one if they have none,
    and is undefined behaviour if they have one that cannot be read. *)
Lemma L_C87_split_get_or_create cf tops lops st D sP tP s t :
  let S := split_links cf tops lops in
  unit_env cf tops lops -> clife cf tops lops st D sP tP -> s <> 0 -> t <> 0 -> s <> c_any cf -> t <> c_any cf ->
  (exists i, is_link S st i s t /\ d_search cf S st s t = Val (Some i) /\ d_get_or_create cf S s t st = Val (st, Ok i)) \/
  (exists i, D i = Some (s, t) /\ no_link S st i /\ sP i = home D tP s /\ d_search cf S st s t = UB /\ d_get_or_create cf S s t st = UB) \/
  ((forall i, D i = Some (s, t) -> sP i <> home D tP s \/ tP i <> home D tP t) /\
   d_search cf S st s t = Val None /\ d_get_or_create cf S s t st = d_create_link S s t st).
Proof.
  intros S ENV HL S0 T0 SA TA. pose proof (SplitAfterCrash.L_C86_reads cf tops lops st D sP tP ENV HL) as [RD NR].
  assert (HT : home D tP t <> Out) by (unfold home; destruct (N.eqb_spec t 0); [contradiction|]; destruct (readable D tP t); discriminate).
  destruct (SplitAfterCrash.L_C86_search cf tops lops st D sP tP s t ENV HL S0 T0 SA TA) as [(i & DI & PL & E & _)|(NO & E & _)]; fold S in E.
  - destruct (tP i) eqn:ET; [right; left|left|left]; exists i.
    + assert (X : d_search cf S st s t = UB) by (unfold d_search, d_find, d_each_by; rewrite E; reflexivity).
      split; auto. split; [apply NR; intros x y DX; rewrite DI in DX; injection DX as <- <-; auto|].
      split; [destruct PL as [PL|PL]; [exact PL|congruence]|]. split; auto. unfold d_get_or_create. now rewrite X.
    + assert (X : d_search cf S st s t = Val (Some i)) by (unfold d_search, d_find, d_each_by; rewrite E; reflexivity).
      split; [apply RD; split; auto; right; congruence|]. split; auto. unfold d_get_or_create. now rewrite X.
    + assert (X : d_search cf S st s t = Val (Some i)) by (unfold d_search, d_find, d_each_by; rewrite E; reflexivity).
      split; [apply RD; split; auto; right; congruence|]. split; auto. unfold d_get_or_create. now rewrite X.
  - right. right. split; auto.
    assert (X : d_search cf S st s t = Val None) by (unfold d_search, d_find, d_each_by; rewrite E; reflexivity).
    split; auto. unfold d_get_or_create. now rewrite X.
Qed.
(** What usages, count_usages and has_usages answer: the stored links, readable or not, that are
    in the tree of sources or of targets of [i]. *)
Lemma L_C87_split_usages cf tops lops st D sP tP i s t :
  let S := split_links cf tops lops in
  unit_env cf tops lops -> cfg_room cf -> clife cf tops lops st D sP tP -> is_link S st i s t ->
  exists L1 L2 e1 e2, NoDup L1 /\ NoDup L2 /\
    (forall l, In l L1 <-> D (l_index l) = Some (l_source l, l_target l) /\ l_index l <> i /\ l_source l = i /\ sP (l_index l) = Int i) /\
    (forall l, In l L2 <-> D (l_index l) = Some (l_source l, l_target l) /\ l_index l <> i /\ l_target l = i /\ tP (l_index l) = Int i) /\
    (e1 = 1 /\ s = i /\ sP i <> Int i \/ e1 = 0 /\ (s = i -> sP i = Int i)) /\
    (e2 = 1 /\ t = i /\ tP i <> Int i \/ e2 = 0 /\ (t = i -> tP i = Int i)) /\
    let n := reckoned (N.of_nat (length L1)) (N.of_nat (length L2)) e1 e2 in
    d_count_usages cf S st i = (let* n := n in Val (Ok n)) /\
    d_has_usages cf S st i = (let* n := n in Val (negb (n =? 0))) /\
    d_usages cf S st i = (let* _ := n in Val (Ok (map l_index (L1 ++ L2)))).
Proof.
  intros S ENV RM HL LI. assert (LK : linked S st i) by (exists s, t; exact LI).
  pose proof (SplitAfterCrash.L_C86_reads cf tops lops st D sP tP ENV HL) as [RD _].
  pose proof LI as DI. apply RD in DI as [DI _].
  pose proof (clife_inv cf tops lops ENV _ _ _ _ HL) as K.
  assert (RI : readable D tP i = true) by (apply (c_linked cf tops lops ENV _ _ _ _ i K); exact LK).
  destruct (stored_range cf tops lops ENV _ _ _ _ i HL) as [IR IA]; [congruence|]. assert (I0 : i <> 0) by lia.
  assert (HI : home D tP i = Int i) by (unfold home; rewrite RI; destruct (N.eqb_spec i 0); [contradiction|reflexivity]).
  destruct (SplitAfterCrash.L_C86_by_source cf tops lops st D sP tP i ENV HL I0 IA) as (L1 & A1 & A2 & A3 & A4). specialize (A4 LK).
  destruct (SplitAfterCrash.L_C86_by_target cf tops lops st D sP tP i ENV HL I0 IA) as (L2 & B1 & B2 & B3 & B4).
  setoid_rewrite HI in A2. setoid_rewrite HI in B2. fold S in A3, A4, B3, B4.
  assert (BD : forall V, NoDup V -> (forall l, In l V -> D (l_index l) = Some (l_source l, l_target l)) -> N.of_nat (length V) <= c_iend cf).
  { intros V ND X. destruct K as (_ & top & fr & R). pose proof (sm_iend _ _ _ _ _ R) as TI. cbn [a_top] in TI.
    assert (NoDup (map l_index V)).
    { apply NoDup_map_of; auto. intros l k Y Z E. apply X in Y, Z. rewrite E in Y. destruct l, k. cbn in *. congruence. }
    assert (Y : incl (map l_index V) (range1 (c_iend cf))).
    { intros j J. apply in_map_iff in J as (l & <- & J). apply in_range1. apply (stored_range cf tops lops ENV _ _ _ _ _ HL). rewrite (X l J). discriminate. }
    apply NoDup_incl_length in Y; auto. rewrite map_length in Y. rewrite length_range1 in Y. lia. }
  assert (SELF : forall l, D (l_index l) = Some (l_source l, l_target l) -> l_index l = i -> l = mkLink i s t).
  { intros l X E. rewrite E, DI in X. destruct l. cbn in *. congruence. }
  destruct (usages_of cf S st i s t L1 L2 RM LI) as (Y1 & Y2 & Y3); auto.
  { split; auto. } { split; auto. }
  { apply BD; auto. intros l X. now apply A2 in X. }
  { apply BD; auto. intros l X. now apply B2 in X. }
  { intros l X E. apply A2 in X as (X1 & X2 & _). pose proof (SELF l X1 E) as Z. split; auto. subst l. exact (eq_sym X2). }
  { intros l X E. apply B2 in X as (X1 & X2 & _). pose proof (SELF l X1 E) as Z. split; auto. subst l. exact (eq_sym X2). }
  assert (UN : forall (pl : N -> place) v V, (In (mkLink i s t) V <-> v = i /\ pl i = Int i) ->
    (forall l, In l V -> l_index l = i -> l = mkLink i s t) ->
    unfound i v V = 1 /\ v = i /\ pl i <> Int i \/ unfound i v V = 0 /\ (v = i -> pl i = Int i)).
  { intros pl v V IV OV. unfold unfound. destruct (N.eqb_spec i v) as [<-|NE]; cbn [andb]; [|right; split; [reflexivity|congruence]].
    destruct (existsb (fun l => l_index l =? i) V) eqn:EX; cbn [negb].
    - right. split; auto. intros _. apply existsb_exists in EX as (l & IL & E). apply N.eqb_eq in E. pose proof (OV l IL E). subst l. now apply IV in IL.
    - left. split; auto. split; auto. intros X. assert (Y : existsb (fun l => l_index l =? i) V = true); [|congruence].
      apply existsb_exists. exists (mkLink i s t). split; [|apply N.eqb_refl]. apply IV. auto. }
  exists (but i L1), (but i L2), (unfound i s L1), (unfound i t L2).
  split; [now apply NoDup_filter|]. split; [now apply NoDup_filter|].
  split; [intros l; rewrite in_but, A2; tauto|]. split; [intros l; rewrite in_but, B2; tauto|].
  split; [|split; [|auto]].
  - apply UN; [rewrite A2; cbn [l_index l_source l_target]; tauto|]. intros l X E. apply A2 in X. apply SELF; tauto.
  - apply UN; [rewrite B2; cbn [l_index l_source l_target]; tauto|]. intros l X E. apply B2 in X. apply SELF; tauto.
Qed.
Lemma L_C87_split_usages_missing cf tops lops st D sP tP i :
  let S := split_links cf tops lops in
  unit_env cf tops lops -> clife cf tops lops st D sP tP -> no_link S st i ->
  d_usages cf S st i = Val (Err (NotExists i)) /\ d_count_usages cf S st i = Val (Err (NotExists i)) /\ d_has_usages cf S st i = Val false.
Proof. intros S ENV HL NL. now apply usages_none. Qed.

(** ** delete_usages of the two-memory store *)
(** No two stored links have the same pair, apart from links with neither end. *)
Definition sole (D : stored) : Prop := forall x y p, D x = Some p -> D y = Some p -> p <> (0, 0) -> x = y.
(** A link that can be read and that both trees have where they look for it. *)
Definition filed (D : stored) (sP tP : N -> place) (l : link) : Prop :=
  D (l_index l) = Some (l_source l, l_target l) /\ readable D tP (l_index l) = true /\
  sP (l_index l) = home D tP (l_source l) /\ tP (l_index l) = home D tP (l_target l).
(** The stored links once the links with the indices [W] are gone, and where the others are. *)
Definition remaining (W : list N) (D : stored) : stored := fun j => if in_dec N.eq_dec j W then None else D j.
Definition vacated (W : list N) (pl : N -> place) : N -> place := fun j =>
  if in_dec N.eq_dec j W then Out else match pl j with Int v => if in_dec N.eq_dec v W then Ext else Int v | p => p end.

Section SD.
  Variables (cf : cfg) (tops : tree_ops) (lops : list_ops).
  Hypothesis ENV : unit_env cf tops lops.
  Notation S := (split_links cf tops lops).

  Lemma linked_range st D sP tP i : clife cf tops lops st D sP tP -> linked S st i -> i <> 0 /\ i <> c_any cf.
  Proof.
    intros HL LI. pose proof (clife_inv cf tops lops ENV _ _ _ _ HL) as K.
    apply (SplitAfterCrash.c_linked cf tops lops ENV _ _ _ _ _ K) in LI. apply readable_some in LI.
    destruct (stored_range cf tops lops ENV _ _ _ _ i HL LI). split; auto. lia.
  Qed.
  Lemma readable_some_iff D tP i s t : D i = Some (s, t) -> (readable D tP i = true <-> s = 0 \/ tP i <> Out).
  Proof.
    intros E. unfold readable. rewrite E, orb_true_iff, N.eqb_eq. destruct (tP i); split; intros [X|X]; auto; try discriminate; try congruence; right; congruence || discriminate || auto.
  Qed.
  Lemma unread st D sP tP i : clife cf tops lops st D sP tP -> readable D tP i = false -> no_link S st i.
  Proof.
    intros HL X. pose proof (clife_inv cf tops lops ENV _ _ _ _ HL) as K.
    apply (SplitAfterCrash.c_none cf tops lops ENV _ _ _ _ _ K), seen_none. exact X.
  Qed.

  Lemma sole_lone st D sP tP : clife cf tops lops st D sP tP -> sole D -> forall x, tree_lone D sP x /\ tree_lone D tP x.
  Proof.
    intros HL SO x. pose proof (clife_inv cf tops lops ENV _ _ _ _ HL) as (_ & top & fr & R).
    split; intros O j J1 J2.
    - pose proof (sm_sp _ _ _ _ _ R x) as Q. cbn [a_map] in Q. destruct (sP x) as [| |v]; [contradiction| |].
      + destruct Q as (s & t & Q & S0). cbn [a_map] in Q. apply (SO j x (s, t)); congruence.
      + destruct Q as ((t & Q) & S0 & _). cbn [a_map] in Q. apply (SO j x (v, t)); congruence.
    - pose proof (sm_tp _ _ _ _ _ R x) as Q. cbn [a_map] in Q. destruct (tP x) as [| |v]; [contradiction| |].
      + destruct Q as (s & t & Q & S0). cbn [a_map] in Q. apply (SO j x (s, t)); congruence.
      + destruct Q as ((t & Q) & S0 & _). cbn [a_map] in Q. apply (SO j x (t, v)); congruence.
  Qed.

  Lemma readable_del D tP i v : v <> i -> readable (upd D i None) (upd (SplitWrites.moved i tP) i Out) v = readable D tP v.
  Proof.
    intros NE. rewrite <- (SplitScars.moved_readable D tP i v). unfold readable. now rewrite !upd_other by auto.
  Qed.
  Lemma home_del D tP i v : i <> 0 -> readable D tP i = true ->
    home (upd D i None) (upd (SplitWrites.moved i tP) i Out) v = if v =? i then Ext else home D tP v.
  Proof.
    intros I0 RD. destruct (N.eqb_spec v i) as [->|NE].
    - unfold home, readable. rewrite upd_same. apply N.eqb_neq in I0. now rewrite I0.
    - unfold home. now rewrite readable_del.
  Qed.
  Lemma moved_to D tP i v (pl : N -> place) x : i <> 0 -> x <> i -> readable D tP i = true -> pl x = home D tP v ->
    SplitWrites.moved i pl x = if v =? i then Ext else home D tP v.
  Proof.
    intros I0 XI RD E. unfold SplitWrites.moved. rewrite E. destruct (N.eqb_spec x i); [contradiction|].
    unfold home. destruct (N.eqb_spec v i) as [->|NE].
    - apply N.eqb_neq in I0. rewrite I0, RD, N.eqb_refl. reflexivity.
    - destruct (v =? 0); auto. destruct (readable D tP v); auto. destruct (N.eqb_spec v i); [contradiction|reflexivity].
  Qed.
  Lemma filed_del D sP tP i l : i <> 0 -> l_index l <> i -> readable D tP i = true -> filed D sP tP l ->
    filed (upd D i None) (upd (SplitWrites.moved i sP) i Out) (upd (SplitWrites.moved i tP) i Out) l.
  Proof.
    intros I0 NE RD (F1 & F2 & F3 & F4). unfold filed. rewrite !home_del, readable_del, !upd_other by auto.
    repeat split; auto; eapply moved_to; eauto.
  Qed.
  Lemma vacated_cons i W (pl : N -> place) x : vacated W (upd (SplitWrites.moved i pl) i Out) x = vacated (i :: W) pl x.
  Proof.
    unfold vacated. destruct (in_dec N.eq_dec x (i :: W)) as [I1|I1].
    - destruct (in_dec N.eq_dec x W) as [I2|I2]; auto. destruct I1 as [<-|I1]; [|contradiction]. now rewrite upd_same.
    - assert (NE : x <> i) by (intros ->; apply I1; now left). assert (NI : ~ In x W) by (intros X; apply I1; now right).
      destruct (in_dec N.eq_dec x W); [contradiction|]. rewrite upd_other by auto. unfold SplitWrites.moved.
      destruct (N.eqb_spec x i); [contradiction|]. destruct (pl x) as [| |v]; auto.
      destruct (N.eqb_spec v i) as [E|NV]; destruct (in_dec N.eq_dec v (i :: W)) as [I2|I2]; auto.
      + destruct I2. now left.
      + destruct (in_dec N.eq_dec v W) as [I3|I3]; auto. destruct I2 as [I2|I2]; [congruence|contradiction].
      + destruct (in_dec N.eq_dec v W) as [I3|I3]; auto. destruct I2. now right.
  Qed.
  Lemma remaining_cons i W (D : stored) x : remaining W (upd D i None) x = remaining (i :: W) D x.
  Proof.
    unfold remaining. destruct (in_dec N.eq_dec x W) as [I1|I1], (in_dec N.eq_dec x (i :: W)) as [I2|I2]; auto.
    - destruct I2. now right.
    - destruct I2 as [<-|I2]; [apply upd_same|contradiction].
    - apply upd_other. intros ->. apply I2. now left.
  Qed.

  (** Deleting several links, none of which is all that is above an unreadable link. *)
  Lemma delete_many_s : forall W st D sP tP, clife cf tops lops st D sP tP -> sole D -> NoDup (map l_index W) ->
    (forall w, In w W -> filed D sP tP w) ->
    (forall l w, D l <> None -> readable D tP l = false -> In w W -> l < l_index w ->
       exists k, l < k /\ ~ In k (map l_index W) /\ D k <> None) ->
    exists st' D' sP' tP', gone_by S st W st' /\ clife cf tops lops st' D' sP' tP' /\ removed S st st' W /\
      (forall j, D' j = remaining (map l_index W) D j) /\
      (forall j, sP' j = vacated (map l_index W) sP j) /\ (forall j, tP' j = vacated (map l_index W) tP j).
  Proof.
    induction W as [|w W IH]; intros st D sP tP HL SO ND A CV.
    - exists st, D, sP, tP. split; [constructor|]. split; auto. split; [intros j; reflexivity|]. split; [intros j; reflexivity|].
      split; intros j; unfold vacated; cbn [map]; [destruct (sP j)|destruct (tP j)]; reflexivity.
    - cbn [map] in ND. inversion ND as [|? ? NI ND']; subst. pose proof (A w (or_introl eq_refl)) as (F1 & F2 & F3 & F4).
      assert (W0 : l_index w <> 0).
      { pose proof (clife_inv cf tops lops ENV _ _ _ _ HL) as K. pose proof (SplitAfterCrash.c_range cf _ _ _ _ (l_index w) K) as X.
        assert (D (l_index w) <> None) by congruence. intros E. specialize (X H). lia. }
      assert (MD : SplitScars.may_delete D sP tP (l_index w) (l_source w) (l_target w)).
      { constructor; auto.
        - exact (sole_lone _ _ _ _ HL SO (l_index w)).
        - intros x _. destruct (sole_lone _ _ _ _ HL SO x). auto.
        - intros TOP l L1 L2. destruct (N.eq_dec l (l_index w)) as [->|NE]; [rewrite upd_same in L1; contradiction|].
          rewrite upd_other in L1 by auto. unfold readable. rewrite upd_other by auto. fold (readable D tP l).
          destruct (readable D tP l) eqn:RL; auto. exfalso.
          assert (LT : l < l_index w). { destruct (N.lt_ge_cases l (l_index w)); auto. exfalso. apply L1, TOP. lia. }
          destruct (CV l w L1 RL (or_introl eq_refl) LT) as (k & K1 & K2 & K3). specialize (L2 k K1).
          rewrite upd_other in L2; [contradiction|]. intros ->. apply K2. now left. }
      destruct (SplitAfterCrash.L_C86_delete_partial cf tops lops st D sP tP _ _ _ ENV HL MD) as (st1 & n & NL & FR & _ & _ & HL1 & CO).
      destruct (IH st1 _ _ _ HL1) as (st' & D' & sP' & tP' & G & HL' & RM & ED & ES & ET); auto.
      + intros x y p X Y. unfold upd in X, Y. destruct (x =? l_index w); [discriminate|]. destruct (y =? l_index w); [discriminate|]. eauto.
      + intros v IV. apply filed_del; auto; [|apply A; now right]. intros E. apply NI. rewrite <- E. now apply in_map.
      + intros l v X Y IV LT. destruct (N.eq_dec l (l_index w)) as [->|NE]; [rewrite upd_same in X; contradiction|].
        rewrite upd_other in X by auto. rewrite readable_del in Y by auto.
        destruct (CV l v X Y (or_intror IV) LT) as (k & K1 & K2 & K3). cbn [map In] in K2. exists k. split; auto. split; [tauto|].
        rewrite upd_other; auto.
      + exists st', D', sP', tP'. split; [apply gb_cons with st1; auto; destruct w; exact CO|]. split; auto. split; [|split; [|split]].
        * intros j. rewrite (RM j). cbn [map].
          destruct (in_dec N.eq_dec j (map l_index W)) as [I1|I1], (in_dec N.eq_dec j (l_index w :: map l_index W)) as [I2|I2]; auto.
          -- destruct I2. now right.
          -- destruct I2 as [<-|I2]; [exact NL|contradiction].
          -- apply FR. intros ->. apply I2. now left.
        * intros j. rewrite ED. apply remaining_cons.
        * intros j. rewrite ES. apply vacated_cons.
        * intros j. rewrite ET. apply vacated_cons.
  Qed.
End SD.

(** The links other than [i] that delete_usages finds: those the trees of [i] have. *)
Definition found (D : stored) (sP tP : N -> place) (i : N) (l : link) : Prop :=
  D (l_index l) = Some (l_source l, l_target l) /\ l_index l <> i /\
  (l_source l = i /\ sP (l_index l) = home D tP i \/ l_target l = i /\ tP (l_index l) = home D tP i).

(** delete_usages deletes the links it finds and leaves the others where they are, except that
    the users of a deleted link become external. *)
Lemma L_C87_split_delete_usages_partial cf tops lops st D sP tP i :
  let S := split_links cf tops lops in
  unit_env cf tops lops -> clife cf tops lops st D sP tP -> linked S st i -> sole D ->
  (forall l, found D sP tP i l -> filed D sP tP l) -> (forall x, x <> i -> D x <> Some (i, i)) ->
  (forall l w, D l <> None -> no_link S st l -> found D sP tP i w -> l < l_index w ->
     exists k x y, l < k /\ D k = Some (x, y) /\ ~ found D sP tP i (mkLink k x y)) ->
  exists st' W D' sP' tP', clife cf tops lops st' D' sP' tP' /\ NoDup W /\ (forall l, In l W <-> found D sP tP i l) /\
    (forall l, In l W -> user S st i l) /\ removed S st st' W /\
    (forall j, D' j = remaining (map l_index W) D j) /\
    (forall j, sP' j = vacated (map l_index W) sP j) /\ (forall j, tP' j = vacated (map l_index W) tP j) /\
    (forall H B (h : uwrite H B) x, d_delete_usages_with cf S h i st x = Val (st', told h W x, Ok tt)) /\
    d_delete_usages cf S i st = Val (st', Ok tt).
Proof.
  intros S ENV HL LI SO FI NB CV.
  assert (IR : i <> 0 /\ i <> c_any cf) by (pose proof (linked_range cf tops lops ENV _ _ _ _ i HL LI); tauto).
  destruct IR as [I0 IA].
  destruct (SplitAfterCrash.L_C86_by_source cf tops lops st D sP tP i ENV HL I0 IA) as (L1 & A1 & A2 & A3 & A4).
  destruct (SplitAfterCrash.L_C86_by_target cf tops lops st D sP tP i ENV HL I0 IA) as (L2 & B1 & B2 & B3 & B4).
  fold S in A3, A4, B3, B4. specialize (A4 LI).
  set (W := rev (but i L1 ++ but i L2)).
  assert (IN : forall l, In l W <-> found D sP tP i l).
  { intros l. unfold W, found. rewrite <- in_rev, in_app_iff, !in_but, A2, B2. tauto. }
  assert (ND : NoDup W).
  { unfold W. apply NoDup_rev. apply NoDup_app_intro; [now apply NoDup_filter|now apply NoDup_filter|].
    intros l X Y. apply in_but in X as [X Z], Y as [Y _]. apply A2 in X as (X1 & X2 & _). apply B2 in Y as (_ & Y2 & _).
    apply (NB _ Z). now rewrite X1, X2, Y2. }
  assert (NDI : NoDup (map l_index W)).
  { apply NoDup_map_of; auto. intros l k X Y E. apply IN in X as (X & _), Y as (Y & _). rewrite <- E, X in Y. injection Y as Y1 Y2.
    destruct l, k. cbn in *. now subst. }
  pose proof (SplitAfterCrash.L_C86_reads cf tops lops st D sP tP ENV HL) as [RD NR]. fold S in RD, NR.
  destruct (delete_many_s cf tops lops ENV W st D sP tP HL SO NDI) as (st' & D' & sP' & tP' & G & HL' & RM & ED & ES & ET).
  { intros w IW. apply FI, IN, IW. }
  { intros l w DL RL IW LT. apply IN in IW. destruct (CV l w DL) as (k & x & y & K1 & K2 & K3); auto; [now apply (unread cf tops lops ENV _ _ _ _ _ HL)|].
    exists k. split; auto. split; [|congruence]. intros IK. apply in_map_iff in IK as (v & <- & IV). apply K3.
    apply IN in IV. pose proof (proj1 IV) as E. rewrite E in K2. injection K2 as <- <-. destruct v. exact IV. }
  exists st', W, D', sP', tP'. split; auto. split; auto. split; auto. split.
  { intros l X. apply IN in X. pose proof (FI l X) as (F1 & F2 & _). destruct X as (_ & X2 & X3). split; [|split; [auto|tauto]].
    apply is_at, RD. split; auto. apply (readable_some_iff _ _ _ _ _ F1), F2. }
  split; auto. split; auto. split; auto. split; auto.
  assert (E : forall H B (h : uwrite H B) x, d_delete_usages_with cf S h i st x = Val (st', told h W x, Ok tt)).
  { intros H B h x. rewrite (usages_with cf S st i L1 L2 H B h x (conj A3 A4) (conj B3 B4)). fold W. rewrite (gone_list S _ _ _ G). reflexivity. }
  split; auto. unfold d_delete_usages. rewrite E. reflexivity.
Qed.
(** With an unreadable link among those found, all that have [i] as target are deleted, perhaps
    some that have it as source, and then the call fails. *)
Lemma L_C87_split_delete_usages_lost cf tops lops st D sP tP i l0 t0 :
  let S := split_links cf tops lops in
  unit_env cf tops lops -> clife cf tops lops st D sP tP -> linked S st i -> sole D ->
  (forall l, found D sP tP i l -> linked S st (l_index l) -> filed D sP tP l) -> (forall x, x <> i -> D x <> Some (i, i)) ->
  (forall l w, D l <> None -> no_link S st l -> found D sP tP i w -> linked S st (l_index w) -> l < l_index w ->
     exists k x y, l < k /\ D k = Some (x, y) /\ ~ (found D sP tP i (mkLink k x y) /\ linked S st k)) ->
  D l0 = Some (i, t0) -> sP l0 = home D tP i -> no_link S st l0 ->
  exists st' W D' sP' tP' j t, D j = Some (i, t) /\ no_link S st j /\ clife cf tops lops st' D' sP' tP' /\ NoDup W /\
    (forall l, In l W -> found D sP tP i l /\ user S st i l) /\
    (forall l, found D sP tP i l -> l_target l = i -> In l W) /\ removed S st st' W /\
    (forall j, D' j = remaining (map l_index W) D j) /\
    (forall j, sP' j = vacated (map l_index W) sP j) /\ (forall j, tP' j = vacated (map l_index W) tP j) /\
    (forall H B (h : uwrite H B) x, d_delete_usages_with cf S h i st x = Val (st', told h W x, Err (NotExists j))) /\
    d_delete_usages cf S i st = Val (st', Err (NotExists j)).
Proof.
  intros S ENV HL LI SO FI NB CV DL PL NL0.
  assert (IR : i <> 0 /\ i <> c_any cf) by (pose proof (linked_range cf tops lops ENV _ _ _ _ i HL LI); tauto).
  destruct IR as [I0 IA].
  destruct (SplitAfterCrash.L_C86_by_source cf tops lops st D sP tP i ENV HL I0 IA) as (L1 & A1 & A2 & A3 & A4).
  destruct (SplitAfterCrash.L_C86_by_target cf tops lops st D sP tP i ENV HL I0 IA) as (L2 & B1 & B2 & B3 & B4).
  fold S in A3, A4, B3, B4. specialize (A4 LI).
  pose proof (SplitAfterCrash.L_C86_reads cf tops lops st D sP tP ENV HL) as [RD NR]. fold S in RD, NR.
  assert (LNI : l0 <> i) by (intros ->; destruct LI as (x & y & LI); unfold is_link, no_link in *; congruence).
  destruct (first_bad (fun l => found D sP tP i l /\ linked S st (l_index l))
      (fun l => (D (l_index l) = Some (i, l_target l) /\ l_source l = i) /\ no_link S st (l_index l)) (rev (but i L1)))
    as (W1 & j & R & E & PW & (QJ1 & QJ0) & QJ2).
  { intros l X. apply in_rev, in_but in X as [X Z]. apply A2 in X as (X1 & X2 & X3).
    destruct (readable D tP (l_index l)) eqn:RL; [left|right].
    - split; [split; [auto|split; [auto|left; auto]]|]. exists (l_source l), (l_target l). apply RD. split; auto. now apply (readable_some_iff _ _ _ _ _ X1).
    - split; [split; congruence|]. now apply (unread cf tops lops ENV _ _ _ _ _ HL). }
  { exists (mkLink l0 i t0). cbn. split; [|auto]. apply -> in_rev. apply in_but. cbn. split; auto. apply A2. cbn. auto. }
  set (W := rev (but i L2) ++ W1).
  assert (IN1 : forall l, In l W1 -> In l (but i L1)) by (intros l X; apply in_rev; rewrite E, in_app_iff; now left).
  assert (FW : forall w, In w W -> found D sP tP i w /\ linked S st (l_index w)).
  { intros w X. apply in_app_iff in X as [X|X]; [|now apply PW]. apply in_rev, in_but in X as [X Z]. apply B2 in X as (X1 & X2 & X3).
    split; [split; [auto|split; [auto|right; auto]]|]. exists (l_source w), (l_target w). apply RD. split; auto. right. rewrite X3. now rewrite home_out. }
  assert (ND : NoDup W).
  { unfold W. apply NoDup_app_intro; [apply NoDup_rev; now apply NoDup_filter| |].
    - assert (X : NoDup (W1 ++ j :: R)) by (rewrite <- E; apply NoDup_rev; now apply NoDup_filter). now apply NoDup_app_inv in X.
    - intros l Y X. apply in_rev in Y. apply IN1 in X. apply in_but in X as [X Z], Y as [Y _]. apply A2 in X as (X1 & X2 & _). apply B2 in Y as (_ & Y2 & _).
      apply (NB _ Z). now rewrite X1, X2, Y2. }
  assert (NDI : NoDup (map l_index W)).
  { apply NoDup_map_of; auto. intros l k X Y EI. apply FW in X as ((X & _) & _), Y as ((Y & _) & _). rewrite <- EI, X in Y. injection Y as Y1 Y2.
    destruct l, k. cbn in *. now subst. }
  destruct (delete_many_s cf tops lops ENV W st D sP tP HL SO NDI) as (st' & D' & sP' & tP' & G & HL' & RM & ED & ES & ET).
  { intros w IW. apply FW in IW as [X Y]. auto. }
  { intros l w DL' RL IW LT. apply FW in IW as [IW1 IW2]. destruct (CV l w DL') as (k & x & y & K1 & K2 & K3); auto; [now apply (unread cf tops lops ENV _ _ _ _ _ HL)|].
    exists k. split; auto. split; [|congruence]. intros IK. apply in_map_iff in IK as (v & <- & IV). apply K3.
    apply FW in IV as [IV1 IV2]. pose proof (proj1 IV1) as EV. rewrite EV in K2. injection K2 as <- <-. destruct v. auto. }
  assert (NJ : no_link S st' (l_index j)).
  { pose proof (RM (l_index j)) as X. unfold no_link in *. fold S in X. rewrite X. destruct (in_dec N.eq_dec (l_index j) (map l_index W)); auto. }
  exists st', W, D', sP', tP', (l_index j), (l_target j). split; auto. split; auto. split; auto. split; auto. split.
  { intros l X. apply FW in X as [X Y]. split; auto. pose proof (FI l X Y) as (F1 & F2 & _). destruct X as (_ & X2 & X3). split; [|split; [auto|tauto]].
    apply is_at, RD. split; auto. apply (readable_some_iff _ _ _ _ _ F1), F2. }
  split.
  { intros l (X1 & X2 & X3) X4. unfold W. apply in_app_iff. left. apply -> in_rev. apply in_but. split; auto. apply B2. split; auto. split; auto.
    destruct X3 as [[X3 _]|[_ X3]]; auto. exfalso. apply (NB _ X2). now rewrite X1, X3, X4. }
  split; auto. split; auto. split; auto. split; auto.
  assert (FL : fails_with (fun H h x => li_delete S H h [l_index j] st' x) st' (NotExists (l_index j))).
  { exact (proj2 (SplitAfterCrash.L_C86_missing cf tops lops st' _ _ _ _ ENV HL' NJ)). }
  assert (EE : forall H B (h : uwrite H B) x, d_delete_usages_with cf S h i st x = Val (st', told h W x, Err (NotExists (l_index j)))).
  { intros H B h x. rewrite (usages_with cf S st i L1 L2 H B h x (conj A3 A4) (conj B3 B4)).
    rewrite rev_app_distr, E, app_assoc. fold W. rewrite map_app. cbn [app map]. rewrite (gone_stop S _ _ _ _ _ G FL). reflexivity. }
  split; auto. unfold d_delete_usages. rewrite EE. reflexivity.
Qed.

(** ** Examples *)
(** The update of link 2 (1->3) was interrupted: the tree of targets still has it.  Link 3 is
    1->2. *)
Definition ex_one : ust := ex_after ref_tree_ops ref_list_ops ex_four.
Definition ex_none (j : N) : Prop := False \/ (j = 2 /\ False).
Lemma ex_one_life : life ex_cf ref_tree_ops ref_list_ops ex_one ex_lost ex_none.
Proof. apply ex_after_life; try exact ex_env; try (unfold is_link; vm_compute; reflexivity). Qed.
Lemma ex_one_users i l : i = 1 \/ i = 3 -> user ex_U ex_one i l -> i = 1 /\ l = mkLink 3 1 2.
Proof.
  intros I (G & NI & E). destruct l as [j s t]. cbn [l_index l_source l_target] in *.
  pose proof (life_small _ _ _ _ _ _ j ex_env ex_one_life (or_introl (ex_intro _ s (ex_intro _ t G)))) as B.
  assert (X : j = 1 \/ j = 2 \/ j = 3 \/ j = 4) by (assert (HA : h_alloc ex_one = 4) by (vm_compute; reflexivity); lia). clear B.
  destruct X as [->|[->|[->| ->]]]; vm_compute in G; try discriminate; injection G as <- <-; destruct I as [->| ->]; lia || auto.
Qed.
Lemma ex_one_may l : user ex_U ex_one 1 l -> may_change ex_cf ref_tree_ops ref_list_ops ex_one ex_lost ex_none (l_index l).
Proof.
  intros X. apply ex_one_users in X as [_ ->]; auto. cbn [l_index].
  assert (L3 : is_link ex_U ex_one 3 1 2) by (unfold is_link; vm_compute; reflexivity).
  split; [apply (ex_sep _ _ _ _ _ 3 1 2 ex_env ex_one_life L3); vm_compute; reflexivity|]. split; [unfold ex_none; tauto|].
  intros l' s t [[]|(_ & _ & E & _)] LI. injection E as -> ->. unfold is_link in LI. vm_compute in LI. discriminate LI.
Qed.
Lemma L_C87_unit_nonvacuous :
  exists st L C, life ex_cf ref_tree_ops ref_list_ops st L C /\ cfg_room ex_cf /\
  L 2 1 3 true /\ no_link ex_U st 2 /\ is_link ex_U st 1 1 1 /\ is_link ex_U st 3 1 2 /\
  (exists st', d_create_link ex_U 1 3 st = Val (st', Ok 5) /\ is_link ex_U st' 5 1 3) /\
  (exists st', d_create_point ex_U st = Val (st', Ok 5) /\ is_link ex_U st' 5 5 5) /\
  d_get_or_create ex_cf ex_U 1 2 st = Val (st, Ok 3) /\ (exists st', d_get_or_create ex_cf ex_U 1 3 st = Val (st', Ok 5)) /\
  d_usages ex_cf ex_U st 1 = Val (Ok [3]) /\ d_count_usages ex_cf ex_U st 1 = Val (Ok 1) /\
  user ex_U st 1 (mkLink 3 1 2) /\
  (forall l, user ex_U st 1 l -> may_change ex_cf ref_tree_ops ref_list_ops st L C (l_index l)) /\
  (forall l s, L l s 1 true -> l = 1) /\ (forall x, x <> 1 -> ~ is_link ex_U st x 1 1) /\
  (forall l s t g w, L l s t g -> user ex_U st 1 w -> l < l_index w ->
     exists k, l < k /\ ((exists x y, is_link ex_U st k x y /\ ~ user ex_U st 1 (mkLink k x y)) \/ exists x y b, L k x y b)) /\
  (forall l, user ex_U st 3 l -> l_target l = 3 -> ~ C (l_index l) -> may_change ex_cf ref_tree_ops ref_list_ops st L C (l_index l)) /\
  (forall l s t g w, L l s t g -> user ex_U st 3 w -> l_target w = 3 -> l < l_index w -> exists k x y b, l < k /\ L k x y b).
Proof.
  exists ex_one, ex_lost, ex_none. split; [exact ex_one_life|]. split; [vm_compute; repeat split; discriminate|].
  split; [right; repeat split; discriminate|].
  do 3 (split; [unfold no_link, is_link; vm_compute; reflexivity|]).
  split; [exists (match d_create_link ex_U 1 3 ex_one with Val (s, _) => s | _ => ex_start end); split; [|unfold is_link]; vm_compute; reflexivity|].
  split; [exists (match d_create_point ex_U ex_one with Val (s, _) => s | _ => ex_start end); split; [|unfold is_link]; vm_compute; reflexivity|].
  split; [vm_compute; reflexivity|].
  split; [exists (match d_get_or_create ex_cf ex_U 1 3 ex_one with Val (s, _) => s | _ => ex_start end); vm_compute; reflexivity|].
  do 2 (split; [vm_compute; reflexivity|]).
  split; [split; [vm_compute; reflexivity|cbn; split; [discriminate|auto]]|].
  split; [exact ex_one_may|].
  split; [intros l s [[]|(_ & _ & E & _)]; discriminate E|].
  split; [intros x X LI; assert (Y : user ex_U ex_one 1 (mkLink x 1 1)) by (split; [exact LI|cbn; auto]); apply ex_one_users in Y as [_ Y]; auto; discriminate Y|].
  split.
  { intros l s t g w [[]|(-> & _)] _ _. exists 4. split; [lia|]. left. exists 4, 4. split; [unfold is_link; vm_compute; reflexivity|].
    intros (_ & _ & [E|E]); discriminate E. }
  split; intros l; intros; exfalso.
  - apply ex_one_users in H as [X _]; auto; discriminate X.
  - apply ex_one_users in H0 as [X _]; auto; discriminate X.
Qed.

(** The users of a link include one that cannot be read, and the calls that go through the users
    fail on it: delete_usages, rebase and rebase_and_delete. *)
Lemma L_C87_unit_refuted : exists st L C, life ex_cf ref_tree_ops ref_list_ops st L C /\
  linked ex_U st 3 /\ no_link ex_U st 2 /\ (forall l, ~ user ex_U st 3 l) /\
  d_usages ex_cf ex_U st 3 = Val (Ok [2]) /\ d_count_usages ex_cf ex_U st 3 = Val (Ok 1) /\
  d_delete_usages ex_cf ex_U 3 st = Val (st, Err (NotExists 2)) /\
  d_rebase ex_cf ex_U 3 4 st = Val (st, Err (NotExists 2)) /\ d_rebase_and_delete ex_cf ex_U 3 4 st = Val (st, Err (NotExists 2)).
Proof.
  exists ex_one, ex_lost, ex_none. split; [exact ex_one_life|].
  split; [exists 1, 2; unfold is_link; vm_compute; reflexivity|]. split; [unfold no_link; vm_compute; reflexivity|].
  split; [intros l X; apply ex_one_users in X as [X _]; auto; discriminate X|].
  repeat (split; [vm_compute; reflexivity|]). vm_compute; reflexivity.
Qed.

(** The update of link 2 from 1->2 to 2->2 was interrupted when the link was back in the tree of
    sources only: count_usages, has_usages and usages panic. *)
Definition ex_two : list cmd := [Cr; Cr; Up 1 1 1; Up 2 1 2].
Definition ex_self : ust := ex_again (ex_stop ref_tree_ops (ex_run ref_tree_ops ref_list_ops ex_two) 2 1 2 2 2 4).
Lemma ex_self_life : life ex_cf ref_tree_ops ref_list_ops ex_self
  (fun j x y g => False \/ (j = 2 /\ detached_point (After 4) 1 2 /\ (x, y) = CrashClaims.stored (After 4) 1 2 2 2 /\ g = listed_point (After 4) 2))
  (fun j => False \/ (j = 2 /\ stray_point (After 4) 1 2 2 2)).
Proof.
  assert (HL : life ex_cf ref_tree_ops ref_list_ops (ex_run ref_tree_ops ref_list_ops ex_two) (fun _ _ _ _ => False) (fun _ => False)).
  { apply ex_life; try exact ex_env; vm_compute; reflexivity. }
  assert (LI : is_link ex_U (ex_run ref_tree_ops ref_list_ops ex_two) 2 1 2) by (unfold is_link; vm_compute; reflexivity).
  refine (life_stop ex_cf ref_tree_ops ref_list_ops _ _ _ 2 1 2 2 2 (After 4) (ex_stop ref_tree_ops (ex_run ref_tree_ops ref_list_ops ex_two) 2 1 2 2 2 4) (fun _ _ => true) _ HL _ LI _ _ _).
  - unfold in_step. vm_compute; reflexivity.
  - split; [|auto]. apply (ex_sep _ _ _ _ _ 2 1 2 ex_env HL LI). vm_compute; reflexivity.
  - cbn [at_point]. vm_compute; reflexivity.
  - vm_compute; reflexivity.
Qed.
Lemma L_C87_unit_panics : exists st L C, life ex_cf ref_tree_ops ref_list_ops st L C /\ is_link ex_U st 2 2 2 /\ C 2 /\
  d_count_usages ex_cf ex_U st 2 = Panic /\ d_has_usages ex_cf ex_U st 2 = Panic /\ d_usages ex_cf ex_U st 2 = Panic.
Proof.
  eexists _, _, _. split; [exact ex_self_life|]. split; [unfold is_link; vm_compute; reflexivity|].
  split; [right; split; [reflexivity|discriminate]|]. split; [vm_compute; reflexivity|]. split; vm_compute; reflexivity.
Qed.

(** In the two-memory store of [SplitAfterCrash.ex_half] links 1 and 3 are (1,1) and (2,1), and
    link 2, stored as (3,1), cannot be read. *)
Lemma L_C87_split_nonvacuous : exists st D sP tP,
  clife ex_cf ref_tree_ops ref_list_ops st D sP tP /\ cfg_room ex_cf /\ D 2 = Some (3, 1) /\ no_link ex_S st 2 /\
  is_link ex_S st 1 1 1 /\ is_link ex_S st 3 2 1 /\
  (exists st', d_create_link ex_S 3 3 st = Val (st', Ok 4) /\ is_link ex_S st' 4 3 3) /\
  (exists st', d_create_link ex_S 3 0 st = Val (st', Ok 4) /\ no_link ex_S st' 4) /\
  (exists st', d_create_point ex_S st = Val (st', Ok 4) /\ is_link ex_S st' 4 4 4) /\
  d_get_or_create ex_cf ex_S 1 1 st = Val (st, Ok 1) /\ (exists st', d_get_or_create ex_cf ex_S 1 3 st = Val (st', Ok 4)) /\
  d_usages ex_cf ex_S st 1 = Val (Ok [3]) /\ d_count_usages ex_cf ex_S st 1 = Val (Ok 1).
Proof.
  set (st := SplitAfterCrash.ex_half ref_tree_ops ref_list_ops). eexists st, _, _, _. split; [exact SplitAfterCrash.ex_half_life|]. split; [vm_compute; repeat split; discriminate|].
  split; [vm_compute; reflexivity|]. do 3 (split; [unfold no_link, is_link; vm_compute; reflexivity|]).
  split; [exists (match d_create_link ex_S 3 3 st with Val (s, _) => s | _ => ex_sstart end); split; [|unfold is_link]; vm_compute; reflexivity|].
  split; [exists (match d_create_link ex_S 3 0 st with Val (s, _) => s | _ => ex_sstart end); split; [|unfold no_link]; vm_compute; reflexivity|].
  split; [exists (match d_create_point ex_S st with Val (s, _) => s | _ => ex_sstart end); split; [|unfold is_link]; vm_compute; reflexivity|].
  split; [vm_compute; reflexivity|].
  split; [exists (match d_get_or_create ex_cf ex_S 1 3 st with Val (s, _) => s | _ => ex_sstart end); vm_compute; reflexivity|].
  split; vm_compute; reflexivity.
Qed.
(** There usages names a link that get does not show, delete_usages and rebase fail on it, and
    asking for its pair is undefined behaviour. *)
Lemma L_C87_split_refuted : exists st D sP tP, clife ex_cf ref_tree_ops ref_list_ops st D sP tP /\ no_link ex_S st 2 /\
  d_usages ex_cf ex_S st 3 = Val (Ok [2]) /\ d_count_usages ex_cf ex_S st 3 = Val (Ok 1) /\
  d_delete_usages ex_cf ex_S 3 st = Val (st, Err (NotExists 2)) /\ d_rebase ex_cf ex_S 3 1 st = Val (st, Err (NotExists 2)) /\
  d_search ex_cf ex_S st 3 1 = UB /\ d_get_or_create ex_cf ex_S 3 1 st = UB.
Proof.
  eexists _, _, _, _. split; [exact SplitAfterCrash.ex_half_life|]. split; [unfold no_link; vm_compute; reflexivity|].
  repeat (split; [vm_compute; reflexivity|]). vm_compute; reflexivity.
Qed.

(** Links 1 to 6 are (1,1), (1,2), (3,4), (4,4), (4,3) and (6,6); link 2 was being changed to
    (3,1). *)
Definition ex_six : list cmd := [Cr; Cr; Cr; Cr; Cr; Cr; Up 1 1 1; Up 2 1 2; Up 3 3 4; Up 4 4 4; Up 5 4 3; Up 6 6 6].
Definition ex_sixth : sst := ex_sopened (SplitAfterCrash.ex_stopat ref_tree_ops ref_list_ops ex_six 2 1 2 3 1 5).
Definition ex_six_D : stored := SplitAfterCrash.ex_pairs ex_six 2 1 2 3 1 5.
Definition ex_six_s : N -> place := SplitAfterCrash.ex_src ex_six 2 3 5.
Definition ex_six_t : N -> place := SplitAfterCrash.ex_tgt ex_six 2 1 5.
Lemma ex_six_life : clife ex_cf ref_tree_ops ref_list_ops ex_sixth ex_six_D ex_six_s ex_six_t.
Proof. apply (SplitAfterCrash.ex_after _ _ _ 6); try exact ex_env; vm_compute; reflexivity. Qed.
Lemma ex_six_all x s t : ex_six_D x = Some (s, t) ->
  x = 1 /\ s = 1 /\ t = 1 \/ x = 2 /\ s = 3 /\ t = 1 \/ x = 3 /\ s = 3 /\ t = 4 \/ x = 4 /\ s = 4 /\ t = 4 \/
  x = 5 /\ s = 4 /\ t = 3 \/ x = 6 /\ s = 6 /\ t = 6.
Proof.
  intros E. pose proof (clife_inv _ _ _ ex_env _ _ _ _ ex_six_life) as K.
  assert (X : ex_six_D x <> None) by congruence. pose proof (SplitAfterCrash.c_range _ _ _ _ _ x K X) as RX.
  replace (sh_alloc ex_sixth) with 6 in RX by (vm_compute; reflexivity).
  assert (C : x = 1 \/ x = 2 \/ x = 3 \/ x = 4 \/ x = 5 \/ x = 6) by lia.
  destruct C as [->|[->|[->|[->|[->| ->]]]]]; vm_compute in E; injection E as <- <-; tauto.
Qed.
Lemma L_C87_split_delete_usages_nonvacuous : exists st D sP tP,
  clife ex_cf ref_tree_ops ref_list_ops st D sP tP /\ sole D /\ linked ex_S st 4 /\ linked ex_S st 3 /\
  (forall x, D x <> Some (4, 4) \/ x = 4) /\ (forall x, D x <> Some (3, 3)) /\
  (forall l, found D sP tP 4 l <-> l = mkLink 3 3 4 \/ l = mkLink 5 4 3) /\ (forall l, found D sP tP 4 l -> filed D sP tP l) /\
  (forall l, found D sP tP 3 l <-> l = mkLink 2 3 1 \/ l = mkLink 5 4 3) /\ filed D sP tP (mkLink 5 4 3) /\
  no_link ex_S st 2 /\ sP 2 = home D tP 3 /\ is_link ex_S st 6 6 6 /\
  (exists st', d_delete_usages ex_cf ex_S 4 st = Val (st', Ok tt) /\ no_link ex_S st' 3 /\ no_link ex_S st' 5 /\ is_link ex_S st' 4 4 4) /\
  (exists st', d_delete_usages ex_cf ex_S 3 st = Val (st', Err (NotExists 2)) /\ no_link ex_S st' 5 /\ is_link ex_S st' 3 3 4).
Proof.
  exists ex_sixth, ex_six_D, ex_six_s, ex_six_t. split; [exact ex_six_life|].
  split. { intros x y [s t] X Y NZ. apply ex_six_all in X, Y. lia. }
  split. { exists 4, 4. unfold is_link. vm_compute. reflexivity. }
  split. { exists 3, 4. unfold is_link. vm_compute. reflexivity. }
  split. { intros x. destruct (N.eq_dec x 4) as [->|NE]; auto. left. intros X. apply ex_six_all in X. lia. }
  split. { intros x X. apply ex_six_all in X. lia. }
  assert (F4 : forall l, found ex_six_D ex_six_s ex_six_t 4 l <-> l = mkLink 3 3 4 \/ l = mkLink 5 4 3).
  { intros [x s t]. split.
    - intros (X & Y & Z). cbn [l_index l_source l_target] in *. apply ex_six_all in X.
      assert (C : x = 3 /\ s = 3 /\ t = 4 \/ x = 5 /\ s = 4 /\ t = 3) by lia.
      destruct C as [(-> & -> & ->)|(-> & -> & ->)]; auto.
    - intros [E|E]; injection E as -> -> ->; (split; [vm_compute; reflexivity|]); (split; [discriminate|]); [right|left]; split; vm_compute; reflexivity. }
  split; [exact F4|].
  split. { intros l X. apply F4 in X as [->| ->]; do 3 (split; [vm_compute; reflexivity|]); vm_compute; reflexivity. }
  split.
  { intros [x s t]. split.
    - intros (X & Y & Z). cbn [l_index l_source l_target] in *. apply ex_six_all in X.
      assert (C : x = 2 /\ s = 3 /\ t = 1 \/ x = 5 /\ s = 4 /\ t = 3) by lia.
      destruct C as [(-> & -> & ->)|(-> & -> & ->)]; auto.
    - intros [E|E]; injection E as -> -> ->; (split; [vm_compute; reflexivity|]); (split; [discriminate|]); [left|right]; split; vm_compute; reflexivity. }
  split. { do 3 (split; [vm_compute; reflexivity|]); vm_compute; reflexivity. }
  split; [unfold no_link; vm_compute; reflexivity|]. split; [vm_compute; reflexivity|]. split; [unfold is_link; vm_compute; reflexivity|].
  split.
  - exists (match d_delete_usages ex_cf ex_S 4 ex_sixth with Val (s, _) => s | _ => ex_sstart end).
    split; [vm_compute; reflexivity|]. split; [unfold no_link; vm_compute; reflexivity|]. split; [unfold no_link; vm_compute; reflexivity|]. unfold is_link; vm_compute; reflexivity.
  - exists (match d_delete_usages ex_cf ex_S 3 ex_sixth with Val (s, _) => s | _ => ex_sstart end).
    split; [vm_compute; reflexivity|]. split; [unfold no_link; vm_compute; reflexivity|]. unfold is_link; vm_compute; reflexivity.
Qed.
