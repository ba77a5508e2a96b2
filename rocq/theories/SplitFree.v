(** Proofs of the claims about the default methods on a two-memory store that is used freely, as
    in SplitLife.v (C85). *)
From Coq Require Import NArith List Bool Lia Permutation Sorted.
From Verif Require Import Base Trees Lists TreeInv Spec Iface UnitModel UnitInv UnitOps LinkModel SplitModel Forest
  SplitInv SplitReads SplitOps SplitWrites SplitLinks Doublets DoubletsOK Obs Hist Claims UnitHist TreeImpl SplitHist
  Decorators GoodStore DecoratorClaims Stacks SplitLife.
Import ListNotations.
Open Scope N_scope.

(** A list without repetitions, and the same without the entry for [i]. *)
Definition but (i : N) (L : list link) : list link := filter (fun l => negb (l_index l =? i)) L.
Lemma in_but i L l : In l (but i L) <-> In l L /\ l_index l <> i.
Proof. unfold but. rewrite filter_In, negb_true_iff, N.eqb_neq. tauto. Qed.
Lemma but_out i L : (forall l, In l L -> l_index l <> i) -> but i L = L.
Proof.
  induction L as [|l L IH]; intros A; [reflexivity|]. cbn. destruct (N.eqb_spec (l_index l) i) as [E|NE].
  - destruct (A l (or_introl eq_refl) E).
  - cbn [negb]. f_equal. apply IH. intros k K. apply A. now right.
Qed.
Lemma but_in k L : NoDup L -> In k L -> (forall l, In l L -> l_index l = l_index k -> l = k) ->
  length L = Datatypes.S (length (but (l_index k) L)).
Proof.
  induction L as [|l L IH]; intros ND I U; [destruct I|]. inversion ND as [|? ? NI ND']; subst. cbn.
  destruct (N.eqb_spec (l_index l) (l_index k)) as [E|NE]; cbn [negb].
  - assert (l = k) as -> by (apply U; [now left|exact E]). f_equal. fold (but (l_index k) L). symmetry. f_equal. apply but_out.
    intros j J EJ. apply NI. rewrite <- (U j (or_intror J) EJ). exact J.
  - destruct I as [->|I]; [contradiction|]. cbn [length]. fold (but (l_index k) L). f_equal. apply IH; auto.
    intros j J. apply U. now right.
Qed.

(** What count_usages gives, when [n1] and [n2] other links are found by source and by target,
    and [e1], [e2] tell whether the link itself is counted although it is not found. *)
Definition reckoned (n1 n2 e1 e2 : N) : out N :=
  if (n1 <? e1) || (n2 <? e2) then Panic else Val (n1 - e1 + (n2 - e2)).

Section F.
  Variables (cf : cfg) (tops : tree_ops) (lops : list_ops).
  Hypothesis ENV : unit_env cf tops lops.
  Notation S := (split_links cf tops lops).

  Lemma life_bound st Ms Mt L : slife cf tops lops st Ms Mt -> NoDup L ->
    (forall l, In l L -> is_link S st (l_index l) (l_source l) (l_target l)) -> N.of_nat (length L) <= c_iend cf.
  Proof.
    intros HL ND A. destruct (slife_inv cf tops lops ENV _ _ _ HL) as (a & sP & tP & K).
    pose proof (sm_iend _ _ _ _ _ (xi_mem _ _ _ _ _ _ _ K)) as LE. pose proof (xi_wf _ _ _ _ _ _ _ K) as W.
    assert (X : (length L <= length (alinks a))%nat).
    { apply NoDup_incl_length; auto. intros [i s t] I. apply A in I. apply (y_link cf tops lops ENV _ _ _ _ _ _ _ _ _ K) in I.
      now apply in_alinks. }
    pose proof (alinks_len_le a). lia.
  Qed.

  (** create_link and create_point *)
  Lemma f_create_link st Ms Mt s t : cfg_room cf -> slife cf tops lops st Ms Mt -> (t = 0 -> s = 0) ->
    not_created S st (d_create_link S s t st) \/
    exists st' n, adds cf S st st' n s t /\ d_create_link S s t st = Val (st', Ok n) /\
      slife cf tops lops st' (fun j => Ms j \/ exists t, is_link S st j n t) (fun j => Mt j \/ exists s, is_link S st j s n).
  Proof.
    intros RM HL TS. destruct (L_C83_create cf tops lops st Ms Mt [] ENV RM HL) as [[_ F]|[(_ & st1 & SM & _ & F)|(st1 & n & CR & HL1 & C)]].
    - left. exists st, (LimitReached (c_iend cf)). split; [intros j; reflexivity|]. split; [exact (cl_create_fail _ _ _ _ _ _ F)|exact F].
    - left. exists st1, AllocFailed. split; auto. split; [exact (cl_create_fail _ _ _ _ _ _ F)|exact F].
    - right. destruct CR as (C1 & C2 & C3 & C4 & _).
      destruct (L_C83_misfiled cf tops lops st Ms Mt ENV HL) as (_ & MS & MT).
      assert (NM : forall x y, ~ is_link S st n x y) by (intros x y X; exact (link_no _ _ _ _ _ X C2)).
      assert (MC : may_touch cf tops lops st1 (fun j => Ms j \/ exists t, is_link S st j n t) (fun j => Mt j \/ exists s, is_link S st j s n) n).
      { split; [now left|]. split; intros [M|(y & M)]; try exact (NM _ _ M).
        - destruct (MS n M) as (x & y & X & _). exact (NM _ _ X).
        - destruct (MT n M) as (x & y & X & _). exact (NM _ _ X). }
      destruct (L_C83_update_partial cf tops lops st1 _ _ n 0 0 s t ENV HL1 C3 MC TS) as (st2 & L2 & F2 & HL2 & U).
      exists st2, n. split; [split; [exact C1|split; [exact C2|split; [exact L2|]]]|split].
      + intros j J. now rewrite F2, C4.
      + exact (cl_once _ _ _ _ _ _ _ _ _ C U).
      + eapply slife_same; [exact HL2| |]; intros j; cbv beta; tauto.
  Qed.
  Lemma f_create_point st Ms Mt : cfg_room cf -> slife cf tops lops st Ms Mt ->
    not_created S st (d_create_point S st) \/
    exists st' n, adds cf S st st' n n n /\ d_create_point S st = Val (st', Ok n) /\
      slife cf tops lops st' (fun j => Ms j \/ exists t, is_link S st j n t) (fun j => Mt j \/ exists s, is_link S st j s n).
  Proof.
    intros RM HL. destruct (L_C83_create cf tops lops st Ms Mt [] ENV RM HL) as [[_ F]|[(_ & st1 & SM & _ & F)|(st1 & n & CR & HL1 & C)]].
    - left. exists st, (LimitReached (c_iend cf)). split; [intros j; reflexivity|]. split; [|exact F].
      unfold d_create_point, d_create, d_create_by, d_create_by_with. rewrite F. reflexivity.
    - left. exists st1, AllocFailed. split; auto. split; [|exact F].
      unfold d_create_point, d_create, d_create_by, d_create_by_with. rewrite F. reflexivity.
    - right. destruct CR as (C1 & C2 & C3 & C4 & _).
      destruct (L_C83_misfiled cf tops lops st Ms Mt ENV HL) as (_ & MS & MT).
      assert (NM : forall x y, ~ is_link S st n x y) by (intros x y X; exact (link_no _ _ _ _ _ X C2)).
      assert (MC : may_touch cf tops lops st1 (fun j => Ms j \/ exists t, is_link S st j n t) (fun j => Mt j \/ exists s, is_link S st j s n) n).
      { split; [now left|]. split; intros [M|(y & M)]; try exact (NM _ _ M).
        - destruct (MS n M) as (x & y & X & _). exact (NM _ _ X).
        - destruct (MT n M) as (x & y & X & _). exact (NM _ _ X). }
      destruct (L_C83_update_partial cf tops lops st1 _ _ n 0 0 n n ENV HL1 C3 MC) as (st2 & L2 & F2 & HL2 & U); [auto|].
      exists st2, n. split; [split; [exact C1|split; [exact C2|split; [exact L2|]]]|split].
      + intros j J. now rewrite F2, C4.
      + unfold d_create_point, d_create, d_create_by, d_create_by_with. rewrite C. cbn [obind wadapt fst snd rmap l_index].
        exact (du_once _ _ _ _ _ _ _ _ U).
      + eapply slife_same; [exact HL2| |]; intros j; cbv beta; tauto.
  Qed.
End F.

(** * C85 The default methods of a two-memory store used freely *)
(** create_link gives a new link with the pair and changes no other.  Links that referred to the
    new index become misfiled. *)
Lemma L_C85_create_link_partial cf tops lops st Ms Mt s t :
  let S := split_links cf tops lops in
  unit_env cf tops lops -> cfg_room cf -> slife cf tops lops st Ms Mt -> (t = 0 -> s = 0) ->
  not_created S st (d_create_link S s t st) \/
  exists st' n, adds cf S st st' n s t /\ d_create_link S s t st = Val (st', Ok n) /\
    slife cf tops lops st' (fun j => Ms j \/ exists t, is_link S st j n t) (fun j => Mt j \/ exists s, is_link S st j s n).
Proof. intros S ENV RM HL TS. now apply f_create_link. Qed.
Lemma L_C85_create_point cf tops lops st Ms Mt :
  let S := split_links cf tops lops in
  unit_env cf tops lops -> cfg_room cf -> slife cf tops lops st Ms Mt ->
  not_created S st (d_create_point S st) \/
  exists st' n, adds cf S st st' n n n /\ d_create_point S st = Val (st', Ok n) /\
    slife cf tops lops st' (fun j => Ms j \/ exists t, is_link S st j n t) (fun j => Mt j \/ exists s, is_link S st j s n).
Proof. intros S ENV RM HL. now apply f_create_point. Qed.
(** get_or_create gives a link that has the pair, and makes a new one only if none has it or all
    that have it are misfiled. *)
Lemma L_C85_get_or_create cf tops lops st Ms Mt s t :
  let S := split_links cf tops lops in
  unit_env cf tops lops -> slife cf tops lops st Ms Mt -> s <> 0 -> t <> 0 -> s <> c_any cf -> t <> c_any cf ->
  (exists i, is_link S st i s t /\ d_search cf S st s t = Val (Some i) /\ d_get_or_create cf S s t st = Val (st, Ok i)) \/
  ((forall i, is_link S st i s t -> Ms i \/ Mt i) /\ d_search cf S st s t = Val None /\
   d_get_or_create cf S s t st = d_create_link S s t st).
Proof.
  intros S ENV HL S0 T0 SA TA.
  destruct (L_C83_search cf tops lops st Ms Mt s t ENV HL S0 T0 SA TA) as [(l & L & E1 & E2 & E)|[NM E]]; fold S in E; [left|right].
  - exists (l_index l). assert (X : d_search cf S st s t = Val (Some (l_index l))).
    { unfold d_search, d_find, d_each_by. rewrite E. reflexivity. }
    split; auto. split; auto. unfold d_get_or_create. now rewrite X.
  - assert (X : d_search cf S st s t = Val None).
    { unfold d_search, d_find, d_each_by. rewrite E. reflexivity. }
    split; auto. split; auto. unfold d_get_or_create. now rewrite X.
Qed.
(** What usages, count_usages and has_usages answer: the links that refer to [i], except the
    misfiled ones, but if [i] refers to itself and is misfiled then it is subtracted from the
    count although it was not counted. *)
Lemma L_C85_usages cf tops lops st Ms Mt i s t :
  let S := split_links cf tops lops in
  unit_env cf tops lops -> cfg_room cf -> slife cf tops lops st Ms Mt -> is_link S st i s t ->
  exists L1 L2 e1 e2, NoDup L1 /\ NoDup L2 /\
    (forall l, In l L1 <-> is_link S st (l_index l) (l_source l) (l_target l) /\ l_index l <> i /\ l_source l = i /\ ~ Ms (l_index l)) /\
    (forall l, In l L2 <-> is_link S st (l_index l) (l_source l) (l_target l) /\ l_index l <> i /\ l_target l = i /\ ~ Mt (l_index l)) /\
    (e1 = 1 /\ s = i /\ Ms i \/ e1 = 0 /\ (s = i -> ~ Ms i)) /\
    (e2 = 1 /\ t = i /\ Mt i \/ e2 = 0 /\ (t = i -> ~ Mt i)) /\
    let n := reckoned (N.of_nat (length L1)) (N.of_nat (length L2)) e1 e2 in
    d_count_usages cf S st i = (let* n := n in Val (Ok n)) /\
    d_has_usages cf S st i = (let* n := n in Val (negb (n =? 0))) /\
    d_usages cf S st i = (let* _ := n in Val (Ok (map l_index (L1 ++ L2)))).
Proof.
  intros S ENV RM HL LI. destruct (slife_inv cf tops lops ENV _ _ _ HL) as (a & sP & tP & K). pose proof K as [R W V O FS FT].
  pose proof (y_cf cf tops lops ENV) as CF.
  assert (LK : linked S st i) by (exists s, t; exact LI).
  assert (IR : 1 <= i <= c_iend cf /\ i <> c_any cf).
  { pose proof (slife_small cf tops lops st Ms Mt i ENV HL LK). rewrite (sm_alloc _ _ _ _ _ R) in *.
    pose proof (sm_iend _ _ _ _ _ R). pose proof (ok_iend _ CF). lia. }
  destruct IR as [IR IA]. assert (I0 : i <> 0) by lia.
  destruct (L_C83_by_source cf tops lops st Ms Mt i ENV HL I0 IA) as (L1 & A1 & A2 & A3 & A4). fold S in A2, A3, A4. specialize (A4 LK).
  destruct (L_C83_by_target cf tops lops st Ms Mt i ENV HL I0 IA) as (L2 & B1 & B2 & B3 & B4). fold S in B2, B3, B4.
  assert (N1 : N.of_nat (length L1) <= c_iend cf) by (eapply (life_bound cf tops lops ENV); eauto; intros l I; now apply A2 in I).
  assert (N2 : N.of_nat (length L2) <= c_iend cf) by (eapply (life_bound cf tops lops ENV); eauto; intros l I; now apply B2 in I).
  pose proof (room_dbl _ RM) as DB.
  assert (UQ : forall l, is_link S st (l_index l) (l_source l) (l_target l) -> l_index l = i -> l = mkLink i s t).
  { intros [j x y] X E. cbn [l_index l_source l_target] in *. subst j. unfold is_link in X, LI. rewrite LI in X. injection X as -> ->. reflexivity. }
  assert (DS : Ms i \/ ~ Ms i) by (destruct (FS i) as [[_ X]|(_ & _ & X)]; auto).
  assert (DT : Mt i \/ ~ Mt i) by (destruct (FT i) as [[_ X]|(_ & _ & X)]; auto).
  assert (X1 : exists e1, (e1 = 1 /\ s = i /\ Ms i \/ e1 = 0 /\ (s = i -> ~ Ms i)) /\
    forall k, (let* us := (if i =? s then csub (N.of_nat (length L1)) 1 else Val (N.of_nat (length L1))) in k us) =
      (if N.of_nat (length (but i L1)) <? e1 then Panic else k (N.of_nat (length (but i L1)) - e1) : out (result N))).
  { destruct (N.eqb_spec i s) as [<-|NE].
    - destruct DS as [M|M].
      + exists 1. split; [auto|]. intros k. assert (E : but i L1 = L1).
        { apply but_out. intros l I EI. apply A2 in I as (_ & _ & I). rewrite EI in I. contradiction. }
        rewrite E. unfold csub. destruct (N.leb_spec 1 (N.of_nat (length L1))); destruct (N.ltb_spec (N.of_nat (length L1)) 1); try lia; reflexivity.
      + exists 0. split; [auto|]. intros k. pose proof (but_in (mkLink i i t) L1 A1) as E. cbn [l_index] in E.
        rewrite E; [|apply A2; cbn; auto|intros l I EI; apply UQ; auto; now apply A2 in I].
        rewrite csub_ok by lia. cbn [obind]. replace (N.of_nat (Datatypes.S (length (but i L1))) - 1) with (N.of_nat (length (but i L1)) - 0) by lia.
        destruct (N.ltb_spec (N.of_nat (length (but i L1))) 0); [lia|reflexivity].
    - exists 0. split; [right; split; auto; intros E; congruence|]. intros k. assert (E : but i L1 = L1).
      { apply but_out. intros l I EI. apply A2 in I as (I & I2 & _). apply UQ in I; auto. subst l. cbn in I2. congruence. }
      rewrite E. cbn [obind]. replace (N.of_nat (length L1) - 0) with (N.of_nat (length L1)) by lia.
      destruct (N.ltb_spec (N.of_nat (length L1)) 0); [lia|reflexivity]. }
  assert (X2 : exists e2, (e2 = 1 /\ t = i /\ Mt i \/ e2 = 0 /\ (t = i -> ~ Mt i)) /\
    forall k, (let* us := (if i =? t then csub (N.of_nat (length L2)) 1 else Val (N.of_nat (length L2))) in k us) =
      (if N.of_nat (length (but i L2)) <? e2 then Panic else k (N.of_nat (length (but i L2)) - e2) : out (result N))).
  { destruct (N.eqb_spec i t) as [<-|NE].
    - destruct DT as [M|M].
      + exists 1. split; [auto|]. intros k. assert (E : but i L2 = L2).
        { apply but_out. intros l I EI. apply B2 in I as (_ & _ & I). rewrite EI in I. contradiction. }
        rewrite E. unfold csub. destruct (N.leb_spec 1 (N.of_nat (length L2))); destruct (N.ltb_spec (N.of_nat (length L2)) 1); try lia; reflexivity.
      + exists 0. split; [auto|]. intros k. pose proof (but_in (mkLink i s i) L2 B1) as E. cbn [l_index] in E.
        rewrite E; [|apply B2; cbn; auto|intros l I EI; apply UQ; auto; now apply B2 in I].
        rewrite csub_ok by lia. cbn [obind]. replace (N.of_nat (Datatypes.S (length (but i L2))) - 1) with (N.of_nat (length (but i L2)) - 0) by lia.
        destruct (N.ltb_spec (N.of_nat (length (but i L2))) 0); [lia|reflexivity].
    - exists 0. split; [right; split; auto; intros E; congruence|]. intros k. assert (E : but i L2 = L2).
      { apply but_out. intros l I EI. apply B2 in I as (I & I2 & _). apply UQ in I; auto. subst l. cbn in I2. congruence. }
      rewrite E. cbn [obind]. replace (N.of_nat (length L2) - 0) with (N.of_nat (length L2)) by lia.
      destruct (N.ltb_spec (N.of_nat (length L2)) 0); [lia|reflexivity]. }
  destruct X1 as (e1 & Y1 & X1). destruct X2 as (e2 & Y2 & X2).
  exists (but i L1), (but i L2), e1, e2.
  split; [now apply NoDup_filter|]. split; [now apply NoDup_filter|].
  split; [intros l; rewrite in_but, A2; tauto|]. split; [intros l; rewrite in_but, B2; tauto|]. split; [exact Y1|]. split; [exact Y2|].
  assert (M1 : N.of_nat (length (but i L1)) <= c_iend cf) by (pose proof (len_filter_le (fun l => negb (l_index l =? i)) L1); unfold but; lia).
  assert (M2 : N.of_nat (length (but i L2)) <= c_iend cf) by (pose proof (len_filter_le (fun l => negb (l_index l =? i)) L2); unfold but; lia).
  assert (CU : d_count_usages cf S st i =
    (let* n := reckoned (N.of_nat (length (but i L1))) (N.of_nat (length (but i L2))) e1 e2 in Val (Ok n))).
  { unfold d_count_usages, d_try_get_link, d_count_by. unfold is_link in LI. rewrite LI. cbn [obind l_source l_target].
    rewrite A4. cbn [obind]. rewrite X1. unfold reckoned.
    destruct (N.of_nat (length (but i L1)) <? e1); cbn [orb]; [reflexivity|]. rewrite B4. cbn [obind]. rewrite X2.
    destruct (N.of_nat (length (but i L2)) <? e2); [reflexivity|]. rewrite cadd_ok by lia. reflexivity. }
  cbv zeta. split; [exact CU|]. split; [unfold d_has_usages; rewrite CU|unfold d_usages; rewrite CU]; unfold reckoned;
    destruct ((N.of_nat (length (but i L1)) <? e1) || (N.of_nat (length (but i L2)) <? e2)); try reflexivity.
  cbn [obind].
  assert (V1 : visits S st [c_any cf; i; c_any cf] L1) by (split; [exact A3|exact A4]).
  assert (V2 : visits S st [c_any cf; c_any cf; i] L2) by (split; [exact B3|exact B4]).
  rewrite (d_each_by_ok _ _ _ _ _ _ _ _ V1), (urun_filter (fun k => negb (l_index k =? i)) l_index). cbn [obind app].
  rewrite (d_each_by_ok _ _ _ _ _ _ _ _ V2), (urun_filter (fun k => negb (l_index k =? i)) l_index). cbn [obind].
  now rewrite map_app.
Qed.
Lemma L_C85_usages_missing cf tops lops st Ms Mt i :
  let S := split_links cf tops lops in
  unit_env cf tops lops -> slife cf tops lops st Ms Mt -> no_link S st i ->
  d_usages cf S st i = Val (Err (NotExists i)) /\ d_count_usages cf S st i = Val (Err (NotExists i)) /\
  d_has_usages cf S st i = Val false.
Proof.
  intros S ENV HL NL. assert (K : d_count_usages cf S st i = Val (Err (NotExists i))).
  { unfold d_count_usages, d_try_get_link. unfold no_link in NL. rewrite NL. reflexivity. }
  unfold d_usages, d_has_usages. rewrite K. auto.
Qed.

(** ** Examples *)
(** Link 1 refers to index 3 twice and was misfiled when that index was given out; link 2 refers
    to itself and to link 1. *)
Lemma L_C85_nonvacuous :
  exists st Ms Mt, slife ex_cf ref_tree_ops ref_list_ops st Ms Mt /\ cfg_room ex_cf /\
  is_link ex_S st 1 3 3 /\ Ms 1 /\ Mt 1 /\ is_link ex_S st 2 2 1 /\ is_link ex_S st 3 0 0 /\ no_link ex_S st 4 /\
  (exists st', d_create_link ex_S 3 2 st = Val (st', Ok 4) /\ is_link ex_S st' 4 3 2) /\
  (exists st', d_create_point ex_S st = Val (st', Ok 4) /\ is_link ex_S st' 4 4 4) /\
  d_get_or_create ex_cf ex_S 2 1 st = Val (st, Ok 2) /\
  d_usages ex_cf ex_S st 1 = Val (Ok [2]) /\ d_count_usages ex_cf ex_S st 1 = Val (Ok 1) /\
  d_usages ex_cf ex_S st 2 = Val (Ok []) /\ d_count_usages ex_cf ex_S st 2 = Val (Ok 0).
Proof.
  exists ex_mis, one, one. split; [exact ex_mis_life|]. split; [vm_compute; repeat split; discriminate|].
  split; [unfold is_link; vm_compute; reflexivity|]. split; [reflexivity|]. split; [reflexivity|].
  split; [unfold is_link; vm_compute; reflexivity|]. split; [unfold is_link; vm_compute; reflexivity|].
  split; [unfold no_link; vm_compute; reflexivity|].
  split; [exists (out_st2 ex_mis (d_create_link ex_S 3 2 ex_mis)); split; unfold is_link; vm_compute; reflexivity|].
  split; [exists (out_st2 ex_mis (d_create_point ex_S ex_mis)); split; unfold is_link; vm_compute; reflexivity|].
  split; [vm_compute; reflexivity|]. split; [vm_compute; reflexivity|]. split; [vm_compute; reflexivity|].
  split; vm_compute; reflexivity.
Qed.
(** Here the pair (3, 3) is given out a second time and the usages of link 3 are empty. *)
Lemma L_C85_refuted :
  exists st Ms Mt st', slife ex_cf ref_tree_ops ref_list_ops st Ms Mt /\ is_link ex_S st 1 3 3 /\ linked ex_S st 3 /\
  d_get_or_create ex_cf ex_S 3 3 st = Val (st', Ok 4) /\ is_link ex_S st' 1 3 3 /\ is_link ex_S st' 4 3 3 /\
  d_usages ex_cf ex_S st 3 = Val (Ok []) /\ d_count_usages ex_cf ex_S st 3 = Val (Ok 0).
Proof.
  exists ex_mis, one, one, (out_st2 ex_mis (d_get_or_create ex_cf ex_S 3 3 ex_mis)). split; [exact ex_mis_life|].
  split; [unfold is_link; vm_compute; reflexivity|]. split; [exists 0, 0; unfold is_link; vm_compute; reflexivity|].
  split; [vm_compute; reflexivity|]. split; [unfold is_link; vm_compute; reflexivity|]. split; [unfold is_link; vm_compute; reflexivity|].
  split; vm_compute; reflexivity.
Qed.
(** After 2: 1 -> 1 is updated to 2 -> 1, count_usages of 2 panics; once another link has source
    2, the count is one short of the usages listed. *)
Definition two (j : N) : Prop := j = 2.
Definition ex_self : sst := ex_more ref_tree_ops [Cr; Cr; Up 2 1 1; Up 2 2 1].
Definition ex_self2 : sst := out_st2 ex_self (d_create_link ex_S 2 1 ex_self).
Definition none (j : N) : Prop := False.
Lemma ex_self_life : slife ex_cf ref_tree_ops ref_list_ops ex_self two none.
Proof.
  pose (l := [Cr; Cr; Up 2 1 1]). destruct (ex_sreach l) as (d & HH & _); [vm_compute; reflexivity..|].
  pose proof (slife_start _ _ _ _ d HH) as HL.
  assert (L2 : is_link ex_S (ex_sst l) 2 1 1) by (unfold is_link; vm_compute; reflexivity).
  assert (MC : may_touch ex_cf ref_tree_ops ref_list_ops (ex_sst l) (fun _ => False) (fun _ => False) 2).
  { split; [|split; intros []]. eapply ex_lone; [exact ex_env|exact HL|reflexivity|exact L2|vm_compute; reflexivity]. }
  destruct (L_C83_update_partial ex_cf ref_tree_ops ref_list_ops _ _ _ 2 1 1 2 1 ex_env HL L2 MC) as (st' & _ & _ & HL' & C); [discriminate|].
  assert (E : li_update ex_S unit cont [2] [2; 2; 1] (ex_sst l) tt = Val (ex_self, tt, Ok Continue)) by (vm_compute; reflexivity).
  assert (st' = ex_self) as ->.
  { assert (X : Val (st', tt, Ok Continue) = Val (ex_self, tt, Ok Continue)) by (rewrite <- E; symmetry; exact (C unit cont tt)).
    clear -X. congruence. }
  eapply slife_same; [exact HL'| |]; intros j; unfold two, none; cbv beta; split; try tauto.
  - intros ->. right. split; [reflexivity|]. split; [reflexivity|discriminate].
  - intros [[]|(_ & K & _)]. discriminate K.
Qed.
Lemma L_C85_count_refuted :
  (exists st Ms Mt, slife ex_cf ref_tree_ops ref_list_ops st Ms Mt /\ is_link ex_S st 2 2 1 /\ Ms 2 /\
     d_count_usages ex_cf ex_S st 2 = Panic /\ d_usages ex_cf ex_S st 2 = Panic /\ d_has_usages ex_cf ex_S st 2 = Panic) /\
  (exists st Ms Mt, slife ex_cf ref_tree_ops ref_list_ops st Ms Mt /\ is_link ex_S st 2 2 1 /\ is_link ex_S st 3 2 1 /\
     d_count_usages ex_cf ex_S st 2 = Val (Ok 0) /\ d_has_usages ex_cf ex_S st 2 = Val false /\ d_usages ex_cf ex_S st 2 = Val (Ok [3])).
Proof.
  split.
  - exists ex_self, two, none. split; [exact ex_self_life|]. split; [unfold is_link; vm_compute; reflexivity|]. split; [reflexivity|].
    split; [|split]; vm_compute; reflexivity.
  - assert (RM : cfg_room ex_cf) by (vm_compute; repeat split; discriminate).
    destruct (L_C85_create_link_partial ex_cf ref_tree_ops ref_list_ops ex_self two none 2 1 ex_env RM ex_self_life) as [(st' & e & _ & E & _)|(st' & n & _ & E & HL)]; [discriminate| |].
    + exfalso. assert (E2 : match d_create_link ex_S 2 1 ex_self with Val (_, Ok _) => true | _ => false end = true) by (vm_compute; reflexivity).
      change (split_links ex_cf ref_tree_ops ref_list_ops) with ex_S in E. rewrite E in E2. discriminate E2.
    + assert (st' = ex_self2) as ->.
      { unfold ex_self2. change (split_links ex_cf ref_tree_ops ref_list_ops) with ex_S in E. rewrite E. reflexivity. }
      eexists ex_self2, _, _. split; [exact HL|]. clear. split; [unfold is_link; vm_compute; reflexivity|].
      split; [unfold is_link; vm_compute; reflexivity|]. split; [|split]; vm_compute; reflexivity.
Qed.
