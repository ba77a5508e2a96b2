(** Proofs of the claims about the decorators over a two-memory store that is used freely, as in
    SplitLife.v (C98). *)
From Coq Require Import NArith List Bool Lia Permutation Sorted.
From Verif Require Import Base Trees Lists TreeInv Spec Iface UnitModel UnitInv UnitOps LinkModel SplitModel Forest
  SplitInv SplitReads SplitOps SplitWrites SplitLinks Doublets DoubletsOK Obs Hist Claims UnitHist TreeImpl SplitHist
  Decorators GoodStore DecoratorClaims Stacks SplitDecorators SplitLife SplitFree.
From Verif Require CrashDefaults.
Import CrashDefaults(is_at, NoDup_map_of).
From Verif Require Import FreeDefaults FreeRebase.
Import ListNotations.
Open Scope N_scope.

Section D.
  Variables (cf : cfg) (tops : tree_ops) (lops : list_ops).
  Hypothesis ENV : unit_env cf tops lops.
  Notation S := (split_links cf tops lops).
  Notation any := (c_any cf).

  Lemma fd_search st Ms Mt s t : slife cf tops lops st Ms Mt -> full_pair cf s t ->
    (exists j, is_link S st j s t /\ d_search cf S st s t = Val (Some j)) \/
    ((forall j, is_link S st j s t -> Ms j \/ Mt j) /\ d_search cf S st s t = Val None).
  Proof.
    intros HL (S0 & T0 & SA & TA).
    destruct (L_C85_get_or_create cf tops lops st Ms Mt s t ENV HL S0 T0 SA TA) as [(j & A & B & _)|(A & B & _)]; eauto.
  Qed.
  (** the count by which found answers, for a pair whose source is a link *)
  Lemma fd_found st Ms Mt s t : slife cf tops lops st Ms Mt -> linked S st s -> t <> 0 -> t <> any ->
    (d_found S st [any; s; t] = Val true /\ exists j, is_link S st j s t) \/
    (d_found S st [any; s; t] = Val false /\ forall j, is_link S st j s t -> Ms j \/ Mt j).
  Proof.
    intros HL LS T0 TA. destruct (linked_bounds cf tops lops ENV _ _ _ _ HL LS) as [S0 SA].
    pose proof (L_C83_search cf tops lops st Ms Mt s t ENV HL S0 T0 SA TA) as SR. cbv zeta in SR.
    destruct (slife_inv cf tops lops ENV _ _ _ HL) as (a & sP & tP & K). pose proof (y_cf cf tops lops ENV) as CF.
    assert (VS : isvirt a s = false).
    { apply (y_linked cf tops lops ENV _ _ _ _ _ _ _ K) in LS. unfold isvirt. destruct (N.eqb_spec s 0); [contradiction|].
      destruct (a_map a s); [reflexivity|contradiction]. }
    assert (EC : li_count S st [any; s; t] = let* r := s_search st false (isvirt a t) s t in Val (if r =? 0 then 0 else 1)).
    { cbn [li_count split_links]. unfold s_count. rewrite (ok_ipart _ CF), (ok_spart _ CF), (ok_tpart _ CF), qget_0, qget_1, qget_2.
      cbn [obind]. rewrite !(y_virt cf _ _ _ _ _ _ _ K). cbn [obind]. rewrite N.eqb_refl, VS.
      destruct (N.eqb_spec s any); [contradiction|]. destruct (N.eqb_spec t any); [contradiction|]. cbn [andb]. now rewrite (ok_null _ CF). }
    assert (EE : forall H (h : rhandler H) x, li_each S H h [any; s; t] st x = let* r := s_search st false (isvirt a t) s t in
       if r =? 0 then Val (x, Continue) else let* o := s_get_link cf st r in match o with Some lk => Val (h x lk) | None => UB end).
    { intros H h x. cbn [li_each split_links]. unfold s_each. rewrite (ok_ipart _ CF), (ok_spart _ CF), (ok_tpart _ CF), qget_0, qget_1, qget_2.
      cbn [obind]. unfold s_each3. rewrite !(y_virt cf _ _ _ _ _ _ _ K). cbn [obind]. rewrite N.eqb_refl, VS.
      destruct (N.eqb_spec s any); [contradiction|]. destruct (N.eqb_spec t any); [contradiction|]. cbn [andb]. now rewrite (ok_null _ CF). }
    unfold d_found, d_count_by. rewrite EC. destruct SR as [(l & L & _ & _ & E)|[NM E]]; [left|right];
      specialize (E bool (fun _ _ => (true, Continue)) false); rewrite EE in E;
      destruct (s_search st false (isvirt a t) s t) as [r| | |]; try discriminate; cbn [obind] in *.
    - destruct (r =? 0); [discriminate|]. split; [reflexivity|eauto].
    - destruct (r =? 0); [split; [reflexivity|exact NM]|].
      destruct (s_get_link cf st r) as [[lk|]| | |]; discriminate.
  Qed.
  Lemma fd_update_with st Ms Mt i os ot s t : slife cf tops lops st Ms Mt -> is_link S st i os ot -> may_touch cf tops lops st Ms Mt i ->
    (t = 0 -> s = 0) ->
    exists st', is_link S st' i s t /\ frame S st st' i /\
      slife cf tops lops st' (fun j => Ms j \/ (j = i /\ s = i /\ os <> 0)) (fun j => Mt j \/ (j = i /\ t = i /\ os <> 0)) /\
      (forall H (h : whandler H) x, to_flow (d_update_with S (uw_of h) i s t st x) =
        Val (st', fst (h x (mkLink i os ot) (mkLink i s t)), Ok (snd (h x (mkLink i os ot) (mkLink i s t))))) /\
      calls_once (fun H h x => li_update S H h [i] [i; s; t] st x) st' (mkLink i os ot) (mkLink i s t).
  Proof.
    intros HL LI MT TS. destruct (L_C83_update_partial cf tops lops st Ms Mt i os ot s t ENV HL LI MT TS) as (st' & L' & F & HL' & C).
    exists st'. split; auto. split; auto. split; auto. split; auto. intros H h x. unfold d_update_with, d_update_by_with, to_flow.
    rewrite (wadapt_once _ _ _ _ _ _ _ _ C). cbn [obind rmap]. now rewrite uw_fst, uw_flow.
  Qed.
  Lemma fd_update_none st Ms Mt i s t : slife cf tops lops st Ms Mt -> no_link S st i ->
    forall H (h : whandler H) x, to_flow (d_update_with S (uw_of h) i s t st x) = Val (st, x, Err (NotExists i)).
  Proof.
    intros HL NL H h x. pose proof (proj1 (L_C83_missing cf tops lops st Ms Mt i ENV HL NL) s t) as C.
    unfold d_update_with, d_update_by_with, to_flow. now rewrite (wadapt_fail _ _ _ _ _ _ _ C).
  Qed.
  Lemma once_delete_with st st' i b : calls_once (fun H h x => li_delete S H h [i] st x) st' b nothing ->
    forall H (h : whandler H) x, exists o, d_delete_with S (uw_of h) i st x = Val (st', fst (h x b nothing), Ok o).
  Proof.
    intros C H h x. unfold d_delete_with, d_delete_by_with. rewrite (wadapt_once _ _ _ _ _ _ _ _ C). rewrite uw_fst. eauto.
  Qed.
  Lemma fd_delete_none st Ms Mt i : slife cf tops lops st Ms Mt -> no_link S st i ->
    forall H (h : whandler H) x, d_delete_with S (uw_of h) i st x = Val (st, x, Err (NotExists i)).
  Proof.
    intros HL NL H h x. pose proof (proj2 (L_C83_missing cf tops lops st Ms Mt i ENV HL NL)) as C.
    unfold d_delete_with, d_delete_by_with. now rewrite (wadapt_fail _ _ _ _ _ _ _ C).
  Qed.
  (** separable links stay so when a link is gone *)
  Lemma sep_gone st st' i j : no_link S st' i -> frame S st st' i -> separable S st j -> separable S st' j.
  Proof.
    intros NL F SE. destruct (N.eq_dec j i) as [->|NE]; [right; intros k s t X; destruct (link_no _ _ _ _ _ X NL)|].
    destruct SE as [X|X]; [left; now apply (link_frame _ _ _ _ _ _ _ F NE)|right]. intros k s t A B.
    apply (link_frame _ _ _ _ _ _ _ F NE) in A. assert (KI : k <> i) by (intros ->; exact (link_no _ _ _ _ _ B NL)).
    apply (link_frame _ _ _ _ _ _ _ F KI) in B. eauto.
  Qed.
End D.

(** UniqueValidator refuses a pair only if a link has it, and lets it pass only if all links that have it are
    misfiled (for sources that are links). *)
Lemma L_C98_unique_validator_partial cf tops lops st Ms Mt i s t :
  let S := split_links cf tops lops in let V := unique_validator cf S in
  unit_env cf tops lops -> slife cf tops lops st Ms Mt -> linked S st s -> t <> 0 -> t <> c_any cf ->
  ((exists j, is_link S st j s t) /\ fails_with (fun H h x => li_update V H h [i] [i; s; t] st x) st (AlreadyExists s t)) \/
  ((forall j, is_link S st j s t -> Ms j \/ Mt j) /\
   forall H (h : whandler H) x, li_update V H h [i] [i; s; t] st x = li_update S H h [i] [i; s; t] st x).
Proof.
  intros S V ENV HL LS T0 TA. subst S V.
  destruct (fd_found cf tops lops ENV st Ms Mt s t HL LS T0 TA) as [[E X]|[E X]]; [left|right]; (split; [exact X|]);
    intros H h x; cbn [unique_validator li_update]; rewrite qget_1, qget_2; cbn [obind]; rewrite E; reflexivity.
Qed.

(** UniqueResolver: the pair is with no link, with another link, or with the link itself. *)
Lemma L_C98_unique_resolver_partial cf tops lops st Ms Mt i s t :
  let S := split_links cf tops lops in let V := unique_resolver cf S in
  unit_env cf tops lops -> slife cf tops lops st Ms Mt -> full_pair cf s t ->
  (forall s0 t0, is_link S st i s0 t0 -> ~ Ms i -> ~ Mt i -> (forall j, separable S st j) ->
     (forall j, is_link S st j s t -> ~ Ms j /\ ~ Mt j) ->
     ((forall j, ~ is_link S st j s t) -> exists st', is_link S st' i s t /\ frame S st st' i /\
        slife cf tops lops st' (fun j => Ms j \/ (j = i /\ s = i /\ s0 <> 0)) (fun j => Mt j \/ (j = i /\ t = i /\ s0 <> 0)) /\
        calls_once (fun H h x => li_update V H h [i] [i; s; t] st x) st' (mkLink i s0 t0) (mkLink i s t)) /\
     (forall j, is_link S st j s t -> j <> i -> exists st', no_link S st' i /\ frame S st st' i /\
        slife cf tops lops st' (fun k => Ms k /\ (forall v, ~ is_link S st k i v) \/ k = j /\ s = j)
          (fun k => Mt k /\ (forall v, ~ is_link S st k v i) \/ k = j /\ t = j) /\
        calls_twice (fun H h x => li_update V H h [i] [i; s; t] st x) st' (mkLink i s0 t0) nothing (mkLink j s t) (mkLink j s t)) /\
     ((s0, t0) = (s, t) -> exists st', no_link S st' i /\ frame S st st' i /\
        forall H (h : whandler H) x, li_update V H h [i] [i; s; t] st x = Val (st', fst (h x (mkLink i s t) nothing), Err (NotExists i)))) /\
  (no_link S st i -> fails_with (fun H h x => li_update V H h [i] [i; s; t] st x) st (NotExists i)).
Proof.
  intros S V ENV HL FP. subst S V. pose proof FP as (S0 & T0 & SA & TA). split.
  - intros s0 t0 LI MS MT SE NM.
    assert (UN : forall j k, is_link (split_links cf tops lops) st j s t -> is_link (split_links cf tops lops) st k s t -> k = j).
    { intros j k A B. destruct (SE j) as [X|X]; [|eauto]. destruct (link_fun _ _ _ _ _ _ _ A X). contradiction. }
    split; [|split].
    + intros NH. destruct (fd_update_with cf tops lops ENV st Ms Mt i s0 t0 s t HL LI) as (st' & L' & F & HL' & E & _);
        [split; auto|contradiction|]. exists st'. do 3 (split; auto).
      intros H h x. cbn [unique_resolver li_update]. rewrite qget_0, qget_1, qget_2. cbn [obind].
      destruct (fd_search cf tops lops ENV st Ms Mt s t HL FP) as [(j & X & _)|[_ X]]; [destruct (NH j X)|]. rewrite X. cbn [obind]. apply E.
    + intros j LJ JI. destruct (NM j LJ) as [MJ MJ'].
      destruct (L_C83_delete_partial cf tops lops st Ms Mt i s0 t0 ENV HL LI) as (st1 & N1 & F1 & HL1 & C1); [split; auto|auto|].
      assert (LJ1 : is_link (split_links cf tops lops) st1 j s t) by (now apply (link_frame _ _ _ _ _ _ _ F1 JI)).
      destruct (fd_update_with cf tops lops ENV st1 _ _ j s t s t HL1 LJ1) as (st2 & L2 & F2 & HL2 & E2 & _).
      { split; [eapply sep_gone; eauto|]. split; intros [X _]; auto. }
      { contradiction. }
      exists st2. split; [unfold no_link; rewrite F2 by auto; exact N1|]. split.
      { intros k KI. destruct (N.eq_dec k j) as [->|KJ]; [unfold is_link in L2, LJ; now rewrite L2, LJ|]. now rewrite F2, F1. }
      split. { eapply slife_same; [exact HL2| |]; intros k; cbn beta; tauto. }
      intros H h x. cbn [unique_resolver li_update]. rewrite qget_0, qget_1, qget_2. cbn [obind].
      destruct (fd_search cf tops lops ENV st Ms Mt s t HL FP) as [(k & X & Y)|[X _]]; [|destruct (X j LJ); contradiction].
      rewrite (UN _ _ LJ X) in Y. rewrite Y. cbn [obind]. unfold then_ok.
      destruct (once_delete_with cf tops lops _ _ _ _ C1 H h x) as (o & ->). cbn [obind]. apply E2.
    + intros [= -> ->]. destruct (L_C83_delete_partial cf tops lops st Ms Mt i s t ENV HL LI) as (st1 & N1 & F1 & HL1 & C1); [split; auto|auto|].
      exists st1. do 2 (split; auto). intros H h x. cbn [unique_resolver li_update]. rewrite qget_0, qget_1, qget_2. cbn [obind].
      destruct (fd_search cf tops lops ENV st Ms Mt s t HL FP) as [(k & X & Y)|[X _]]; [|destruct (X i LI); contradiction].
      rewrite (UN _ _ LI X) in Y. rewrite Y. cbn [obind]. unfold then_ok.
      destruct (once_delete_with cf tops lops _ _ _ _ C1 H h x) as (o & ->). cbn [obind]. eapply fd_update_none; eauto.
  - intros NL H h x. cbn [unique_resolver li_update]. rewrite qget_0, qget_1, qget_2. cbn [obind].
    destruct (fd_search cf tops lops ENV st Ms Mt s t HL FP) as [(k & X & Y)|[X Y]]; rewrite Y; cbn [obind]; [|eapply fd_update_none; eauto].
    unfold then_ok. rewrite (fd_delete_none cf tops lops ENV st Ms Mt i HL NL). reflexivity.
Qed.

(** UsagesValidator refuses if the store finds users, and lets the call pass if the users there are are misfiled. *)
Lemma L_C98_usages_validator_partial cf tops lops st Ms Mt i :
  let S := split_links cf tops lops in let V := usages_validator cf S in
  unit_env cf tops lops -> cfg_room cf -> slife cf tops lops st Ms Mt ->
  (forall s t, is_link S st i s t -> (s = i -> ~ Ms i) -> (t = i -> ~ Mt i) ->
     ((exists l, seen_user S st Ms Mt i l) -> exists L, (forall l, In l L <-> seen_user S st Ms Mt i l) /\
        fails_with (fun H h x => li_delete V H h [i] st x) st (HasUsages L) /\
        forall x y, fails_with (fun H h z => li_update V H h [i] [i; x; y] st z) st (HasUsages L)) /\
     ((forall l, ~ seen_user S st Ms Mt i l) -> forall H (h : whandler H) z,
        li_delete V H h [i] st z = li_delete S H h [i] st z /\
        forall x y, li_update V H h [i] [i; x; y] st z = li_update S H h [i] [i; x; y] st z)) /\
  (no_link S st i -> fails_with (fun H h x => li_delete V H h [i] st x) st (NotExists i) /\
     forall x y, fails_with (fun H h z => li_update V H h [i] [i; x; y] st z) st (NotExists i)).
Proof.
  intros S V ENV RM HL. subst S V. pose proof (ok_ipart _ (y_cf cf tops lops ENV)) as IP. split.
  - intros s t LI SI TI. destruct (L_C85_usages cf tops lops st Ms Mt i s t ENV RM HL LI) as
      (L1 & L2 & e1 & e2 & _ & _ & A1 & A2 & E1 & E2 & _ & _ & U).
    assert (e1 = 0) as -> by (destruct E1 as [(_ & X & Y)|[X _]]; [destruct (SI X Y)|exact X]).
    assert (e2 = 0) as -> by (destruct E2 as [(_ & X & Y)|[X _]]; [destruct (TI X Y)|exact X]).
    unfold reckoned in U. destruct (N.ltb_spec (N.of_nat (length L1)) 0) as [X|_]; [lia|]. destruct (N.ltb_spec (N.of_nat (length L2)) 0) as [X|_]; [lia|].
    cbn [orb obind] in U.
    assert (IN : forall l, In l (L1 ++ L2) <-> seen_user (split_links cf tops lops) st Ms Mt i l).
    { intros l. rewrite in_app_iff, A1, A2. unfold seen_user. tauto. }
    assert (IU : forall H A (z : H) (k : out (sst * H * result A)), if_unused cf (split_links cf tops lops) [i] st z k =
      match L1 ++ L2 with [] => k | _ => Val (st, z, Err (HasUsages (L1 ++ L2))) end).
    { intros H A z k. unfold if_unused. rewrite IP, qget_0. cbn [obind]. rewrite U. cbn [obind].
      pose proof (get_all_ok (split_links cf tops lops) st (L1 ++ L2)) as GA. destruct (L1 ++ L2) as [|l0 L]; [reflexivity|].
      cbn [map] in GA |- *. rewrite GA; [reflexivity|]. intros l IL. apply IN in IL as (X & _). destruct l. exact X. }
    split.
    + intros (l & X). exists (L1 ++ L2). split; auto. apply IN in X. destruct (L1 ++ L2) as [|l0 L]; [destruct X|].
      split; [|intros x y]; intros H h z; cbn [usages_validator li_delete li_update]; apply IU.
    + intros NU H h z. destruct (L1 ++ L2) as [|l0 L]; [|exfalso; apply (NU l0), IN; now left].
      split; [|intros x y]; cbn [usages_validator li_delete li_update]; apply IU.
  - intros NL. assert (IU : forall H A (z : H) (k : out (sst * H * result A)), if_unused cf (split_links cf tops lops) [i] st z k = Val (st, z, Err (NotExists i))).
    { intros H A z k. unfold if_unused. rewrite IP, qget_0. cbn [obind]. unfold d_usages, d_count_usages, d_try_get_link.
      unfold no_link in NL. rewrite NL. reflexivity. }
    split; [|intros x y]; intros H h z; cbn [usages_validator li_delete li_update]; apply IU.
Qed.

(** NonNullDeletionResolver empties the link, then deletes it. *)
Lemma L_C98_non_null_deletion_partial cf tops lops st Ms Mt i :
  let S := split_links cf tops lops in let V := non_null_deletion_resolver cf S in
  unit_env cf tops lops -> slife cf tops lops st Ms Mt ->
  (forall s t, is_link S st i s t -> ~ Ms i -> ~ Mt i -> (forall j, separable S st j) ->
     exists st', no_link S st' i /\ frame S st st' i /\
       slife cf tops lops st' (fun j => Ms j /\ forall v, ~ is_link S st j i v) (fun j => Mt j /\ forall v, ~ is_link S st j v i) /\
       calls_twice (fun H h x => li_delete V H h [i] st x) st' (mkLink i s t) (mkLink i 0 0) (mkLink i 0 0) nothing) /\
  (no_link S st i -> fails_with (fun H h x => li_delete V H h [i] st x) st (NotExists i)).
Proof.
  intros S V ENV HL. subst S V. pose proof (ok_null _ (y_cf cf tops lops ENV)) as NU. split.
  - intros s t LI MS MT SE. assert (LK : linked (split_links cf tops lops) st i) by (exists s, t; exact LI).
    destruct (linked_bounds cf tops lops ENV _ _ _ _ HL LK) as [I0 _].
    destruct (L_C83_update_partial cf tops lops st Ms Mt i s t 0 0 ENV HL LI) as (st1 & L1 & F1 & HL1 & C1); [split; auto|auto|].
    destruct (L_C83_delete_partial cf tops lops st1 _ _ i 0 0 ENV HL1 L1) as (st2 & N2 & F2 & HL2 & C2).
    { split; [now left|]. split; intros [X|(_ & X & _)]; auto. }
    { intros j s' t' _ NE _. apply (sep_empty cf tops lops st st1 i j L1 F1 NE). apply SE. }
    exists st2. split; auto. split; [intros j J; now rewrite F2, F1|]. split.
    + eapply slife_same; [exact HL2| |]; intros j; cbn beta; split.
      * intros [[X|(_ & X & _)] Y]; [|congruence]. split; auto. intros v Z. apply (Y v). apply (link_frame _ _ _ _ _ _ _ F1); [congruence|exact Z].
      * intros [X Y]. split; [now left|]. intros v Z. apply (Y v). apply (link_frame _ _ _ _ _ _ _ F1) in Z; [exact Z|congruence].
      * intros [[X|(_ & X & _)] Y]; [|congruence]. split; auto. intros v Z. apply (Y v). apply (link_frame _ _ _ _ _ _ _ F1); [congruence|exact Z].
      * intros [X Y]. split; [now left|]. intros v Z. apply (Y v). apply (link_frame _ _ _ _ _ _ _ F1) in Z; [exact Z|congruence].
    + intros H h x. cbn [non_null_deletion_resolver li_delete]. rewrite qget_0. cbn [obind]. rewrite NU. unfold then_ok, d_update_by_with.
      rewrite (wadapt_once (fun H h x => li_update (split_links cf tops lops) H h [i] [i; 0; 0] st x) _ _ _ _ _ _ _ C1). cbn [obind].
      rewrite uw_fst. apply C2.
  - intros NL H h x. cbn [non_null_deletion_resolver li_delete]. rewrite qget_0. cbn [obind]. rewrite NU.
    pose proof (proj1 (L_C83_missing cf tops lops st Ms Mt i ENV HL NL) 0 0) as C.
    unfold then_ok, d_update_by_with. now rewrite (wadapt_fail _ _ _ _ _ _ _ C).
Qed.

(** CascadeUsagesResolver deletes the users the store finds, then the link. *)
Lemma L_C98_cascade_usages_partial cf tops lops st Ms Mt i s t :
  let S := split_links cf tops lops in let V := cascade_usages_resolver cf S in
  unit_env cf tops lops -> slife cf tops lops st Ms Mt -> is_link S st i s t -> ~ Ms i -> ~ Mt i -> (forall j, separable S st j) ->
  (forall l, seen_user S st Ms Mt i l -> ~ Ms (l_index l) /\ ~ Mt (l_index l)) -> (forall x, x <> i -> ~ is_link S st x i i) ->
  exists st' W, NoDup W /\ (forall l, In l W <-> seen_user S st Ms Mt i l) /\ removed S st st' (mkLink i s t :: W) /\
    slife cf tops lops st' (left_s S st Ms (mkLink i s t :: W)) (left_t S st Mt (mkLink i s t :: W)) /\
    forall H (h : whandler H) x, let y := told (uw_of h) W x in
      li_delete V H h [i] st x = Val (st', fst (h y (mkLink i s t) nothing), Ok (snd (h y (mkLink i s t) nothing))).
Proof.
  intros S V ENV HL LI MS MT SE NM NB. subst S V. assert (LK : linked (split_links cf tops lops) st i) by (exists s, t; exact LI).
  destruct (L_C85_delete_usages_partial cf tops lops st Ms Mt i ENV HL LK SE NM NB) as (st1 & W & ND & IN & RM & HL1 & E & _).
  assert (NI : ~ In i (map l_index W)).
  { intros M. apply in_map_iff in M as (l & EI & M). apply IN in M. destruct M as (_ & M & _). congruence. }
  assert (LS : forall j s' t', is_link (split_links cf tops lops) st1 j s' t' <-> is_link (split_links cf tops lops) st j s' t' /\ ~ In j (map l_index W)).
  { intros j s' t'. unfold is_link. rewrite RM. destruct (in_dec N.eq_dec j (map l_index W)); split; auto; try tauto; discriminate. }
  assert (SE1 : forall j, In j (map l_index W) \/ separable (split_links cf tops lops) st1 j).
  { intros j. destruct (in_dec N.eq_dec j (map l_index W)); auto. right. destruct (SE j) as [X|X]; [left; now apply LS|right].
    intros k s' t' A B. apply LS in A as [A _], B as [B _]. eauto. }
  destruct (L_C83_delete_partial cf tops lops st1 _ _ i s t ENV HL1) as (st2 & N2 & F2 & HL2 & C2).
  { apply LS. auto. }
  { split; [destruct (SE1 i); [contradiction|auto]|]. split; intros [X _]; auto. }
  { intros j s' t' LJ _ _. apply LS in LJ as [_ X]. destruct (SE1 j); [contradiction|auto]. }
  exists st2, W. split; auto. split; auto. split; [|split].
  - intros j. cbn [map l_index]. destruct (N.eq_dec j i) as [->|J].
    + destruct (in_dec N.eq_dec i (i :: map l_index W)) as [|X]; [exact N2|exfalso; apply X; now left].
    + rewrite F2, RM by auto.
      destruct (in_dec N.eq_dec j (map l_index W)) as [A|A], (in_dec N.eq_dec j (i :: map l_index W)) as [B|B]; auto.
      * exfalso. apply B. now right.
      * destruct B as [B|B]; [congruence|contradiction].
  - assert (WM : forall j, In j (map l_index W) -> ~ Ms j /\ ~ Mt j) by (intros j X; apply in_map_iff in X as (w & <- & X); now apply NM, IN).
    eapply slife_same; [exact HL2| |]; intros j; unfold left_s, left_t; split.
    + intros [[X Y] Z]. split; auto. intros w v [<-|IW]; [|now apply Y]. cbn [l_index]. intros Q. apply (Z v). apply LS. split; auto.
      intros IJ. destruct (WM j IJ). auto.
    + intros [X Y]. split; [split; auto; intros w v IW; apply (Y w v); now right|]. intros v Q. apply LS in Q as [Q _].
      now apply (Y (mkLink i s t) v (or_introl eq_refl)).
    + intros [[X Y] Z]. split; auto. intros w v [<-|IW]; [|now apply Y]. cbn [l_index]. intros Q. apply (Z v). apply LS. split; auto.
      intros IJ. destruct (WM j IJ). auto.
    + intros [X Y]. split; [split; auto; intros w v IW; apply (Y w v); now right|]. intros v Q. apply LS in Q as [Q _].
      now apply (Y (mkLink i s t) v (or_introl eq_refl)).
  - intros H h x. cbn [cascade_usages_resolver li_delete]. rewrite qget_0. cbn [obind]. unfold then_ok. rewrite E. cbn [obind]. apply C2.
Qed.

(** CascadeUniqueResolver: if another link has the pair, the users of the link that the store finds are turned to that
    one, and the link is deleted. *)
Lemma L_C98_cascade_unique_partial cf tops lops st Ms Mt i s t :
  let S := split_links cf tops lops in let V := cascade_unique_resolver cf S in
  unit_env cf tops lops -> slife cf tops lops st Ms Mt -> full_pair cf s t ->
  (forall s0 t0, is_link S st i s0 t0 -> ~ Ms i -> ~ Mt i -> (forall j, separable S st j) ->
     (forall j, is_link S st j s t -> ~ Ms j /\ ~ Mt j) ->
     ((forall j, ~ is_link S st j s t) -> exists st', is_link S st' i s t /\ frame S st st' i /\
        slife cf tops lops st' (fun j => Ms j \/ (j = i /\ s = i /\ s0 <> 0)) (fun j => Mt j \/ (j = i /\ t = i /\ s0 <> 0)) /\
        calls_once (fun H h x => li_update V H h [i] [i; s; t] st x) st' (mkLink i s0 t0) (mkLink i s t)) /\
     (forall j, is_link S st j s t -> j <> i -> s <> i -> t <> i ->
        (forall l, seen_user S st Ms Mt i l -> ~ Ms (l_index l) /\ ~ Mt (l_index l)) -> (forall x, x <> i -> ~ is_link S st x i i) ->
        (forall l, seen_user S st Ms Mt i l -> forall k, ~ is_link S st k (l_source (rebased i j l)) (l_target (rebased i j l))) ->
        exists st' W, NoDup W /\ (forall l, In l W <-> seen_user S st Ms Mt i l) /\ no_link S st' i /\
          (forall w, In w W -> li_get S st' (l_index w) = Val (Some (rebased i j w))) /\
          (forall k, k <> i -> ~ In k (map l_index W) -> li_get S st' k = li_get S st k) /\
          (exists Ms' Mt', slife cf tops lops st' Ms' Mt' /\
             (forall k, Ms' k <-> more_s i j (fun k => Ms k /\ forall v, ~ is_link S st k i v) W k \/ k = j /\ s = j) /\
             (forall k, Mt' k <-> more_t i j (fun k => Mt k /\ forall v, ~ is_link S st k v i) W k \/ k = j /\ t = j)) /\
          forall H (h : whandler H) x, let y := fst (h (told_turned (uw_of h) i j W x) (mkLink i s0 t0) nothing) in
            li_update V H h [i] [i; s; t] st x =
              Val (st', fst (h y (mkLink j s t) (mkLink j s t)), Ok (snd (h y (mkLink j s t) (mkLink j s t)))))) /\
  (no_link S st i -> fails_with (fun H h x => li_update V H h [i] [i; s; t] st x) st (NotExists i)).
Proof.
  intros S V ENV HL FP. subst S V. pose proof FP as (S0 & T0 & SA & TA). split.
  - intros s0 t0 LI MS MT SE NM. split.
    + intros NH. destruct (fd_update_with cf tops lops ENV st Ms Mt i s0 t0 s t HL LI) as (st' & L' & F & HL' & E & _);
        [split; auto|contradiction|]. exists st'. do 3 (split; auto).
      intros H h x. cbn [cascade_unique_resolver li_update]. rewrite qget_0, qget_1, qget_2. cbn [obind].
      destruct (fd_search cf tops lops ENV st Ms Mt s t HL FP) as [(j & X & _)|[_ X]]; [destruct (NH j X)|]. rewrite X. cbn [obind]. apply E.
    + intros j LJ JI SI TI NU NB NP. destruct (NM j LJ) as [MJ MJ'].
      assert (LK : linked (split_links cf tops lops) st i) by (exists s0, t0; exact LI).
      assert (J0 : j <> 0) by (apply (linked_bounds cf tops lops ENV st Ms Mt j HL); exists s, t; exact LJ).
      destruct (rebase_then_delete cf tops lops st Ms Mt i j ENV HL LK JI J0 SE NU NB MS MT (fun l X => NP l X i))
        as (st1 & st2 & W & os & ot & ND & IN & NL & R1 & R2 & HL2 & LO & RW & _ & CO).
      destruct (link_fun _ _ _ _ _ _ _ LI LO) as [<- <-].
      assert (NJ : ~ In j (map l_index W)).
      { intros X. apply in_map_iff in X as (w & EW & X). apply IN in X as (A & _ & B). rewrite EW in A.
        destruct (link_fun _ _ _ _ _ _ _ A LJ) as [E1 E2]. destruct B as [[B _]|[B _]]; congruence. }
      assert (LJ2 : is_link (split_links cf tops lops) st2 j s t) by (unfold is_link; rewrite R2; auto).
      destruct (fd_update_with cf tops lops ENV st2 _ _ j s t s t HL2 LJ2) as (st3 & L3 & F3 & HL3 & E3 & _).
      { split; [|split].
        - right. intros k s' t' A B. destruct (link_fun _ _ _ _ _ _ _ LJ2 A) as [<- <-].
          destruct (N.eq_dec k i) as [->|KI]; [destruct (link_no _ _ _ _ _ B NL)|].
          destruct (in_dec N.eq_dec k (map l_index W)) as [IK|IK].
          + exfalso. apply in_map_iff in IK as (w & <- & IW). apply (NP w (proj1 (IN w) IW) j). apply R1 in IW.
            assert (Q : rebased i j w = mkLink (l_index w) s t) by (unfold is_link in B; congruence). rewrite Q. exact LJ.
          + assert (B' : is_link (split_links cf tops lops) st k s t) by (unfold is_link in *; now rewrite <- R2).
            destruct (SE j) as [X|X]; [destruct (link_fun _ _ _ _ _ _ _ LJ X); contradiction|eauto].
        - intros [[X _]|(w & IW & X & _)]; [auto|]. apply NJ. rewrite X. now apply in_map.
        - intros [[X _]|(w & IW & X & _)]; [auto|]. apply NJ. rewrite X. now apply in_map. }
      { contradiction. }
      assert (SAME : forall k, li_get (split_links cf tops lops) st3 k = li_get (split_links cf tops lops) st2 k).
      { intros k. destruct (N.eq_dec k j) as [->|KJ]; [unfold is_link in L3, LJ2; now rewrite L3, LJ2|now apply F3]. }
      exists st3, W. split; auto. split; auto. split; [unfold no_link; rewrite SAME; exact NL|].
      split; [intros w IW; rewrite SAME; auto|]. split; [intros k KI IK; rewrite SAME; auto|]. split.
      * eexists _, _. split; [exact HL3|]. split; intros k; cbn beta; tauto.
      * intros H h x. cbn [cascade_unique_resolver li_update]. rewrite qget_0, qget_1, qget_2. cbn [obind].
        destruct (fd_search cf tops lops ENV st Ms Mt s t HL FP) as [(k & X & Y)|[X _]]; [|destruct (X j LJ); contradiction].
        assert (k = j) as -> by (destruct (SE j) as [Z|Z]; [destruct (link_fun _ _ _ _ _ _ _ LJ Z); contradiction|eauto]).
        rewrite Y. cbn [obind]. unfold then_ok. rewrite RW. cbn [obind].
        destruct (once_delete_with cf tops lops _ _ _ _ CO H h (told_turned (uw_of h) i j W x)) as (o & ->). cbn [obind]. apply E3.
  - intros NL H h x. cbn [cascade_unique_resolver li_update]. rewrite qget_0, qget_1, qget_2. cbn [obind].
    destruct (fd_search cf tops lops ENV st Ms Mt s t HL FP) as [(k & X & Y)|[X Y]]; rewrite Y; cbn [obind]; [|eapply fd_update_none; eauto].
    unfold then_ok, d_rebase_with, d_try_get_link. unfold no_link in NL. rewrite NL. reflexivity.
Qed.

(** A store with a misfiled link.  1: 3->3 (misfiled), 2: 2->1, 3: 3->2, 4: 0->0, 5: 1->4 *)
Definition ex_wide : sst := ex_more ref_tree_ops (ex_open ++ [Cr; Up 3 3 2; Cr; Cr; Up 5 1 4]).
Definition ex_wide1 : sst := ex_more ref_tree_ops (ex_open ++ [Cr; Up 3 3 2; Cr]).
Definition ex_wide2 : sst := ex_more ref_tree_ops (ex_open ++ [Cr; Up 3 3 2; Cr; Cr]).
Lemma create_alone st st' : slife ex_cf ref_tree_ops ref_list_ops st one one ->
  li_create ex_S unit cont [] st tt = Val (st', tt, Ok Continue) ->
  (forall i s t, is_link ex_S st i s t -> linked ex_S st s \/ s = 0) -> (forall i s t, is_link ex_S st i s t -> linked ex_S st t \/ t = 0) ->
  no_link ex_S st' 0 -> slife ex_cf ref_tree_ops ref_list_ops st' one one.
Proof.
  intros HL E A B Z. eapply slife_same; [exact (slife_create _ _ _ _ _ _ _ _ _ _ _ _ _ HL E)| |]; intros j; (split; [|now left]).
  - intros [X|(i & t & X & (s1 & t1 & Y) & L)]; [exact X|]. apply A in L as [(s2 & t2 & L)| ->]; [destruct (link_no _ _ _ _ _ L X)|destruct (link_no _ _ _ _ _ Y Z)].
  - intros [X|(i & t & X & (s1 & t1 & Y) & L)]; [exact X|]. apply B in L as [(s2 & t2 & L)| ->]; [destruct (link_no _ _ _ _ _ L X)|destruct (link_no _ _ _ _ _ Y Z)].
Qed.
Lemma ex_wide1_life : slife ex_cf ref_tree_ops ref_list_ops ex_wide1 one one.
Proof.
  apply (create_alone ex_far); [exact ex_far_life|vm_compute; reflexivity| | |unfold no_link; vm_compute; reflexivity];
    intros i s t L; apply ex_far_links in L; destruct L as [Q|[Q|[Q|[]]]]; injection Q as <- <- <-; left;
    eexists; eexists; unfold is_link; vm_compute; reflexivity.
Qed.
Lemma ex_wide1_links i s t : is_link ex_S ex_wide1 i s t -> In (mkLink i s t) [mkLink 4 0 0; mkLink 3 3 2; mkLink 2 2 1; mkLink 1 3 3].
Proof. apply (ex_all _ _ _ _ _ _ ex_env ex_wide1_life). vm_compute; reflexivity. Qed.
Lemma ex_wide2_life : slife ex_cf ref_tree_ops ref_list_ops ex_wide2 one one.
Proof.
  apply (create_alone ex_wide1); [exact ex_wide1_life|vm_compute; reflexivity| | |unfold no_link; vm_compute; reflexivity];
    intros i s t L; apply ex_wide1_links in L; destruct L as [Q|[Q|[Q|[Q|[]]]]]; injection Q as <- <- <-; auto; left;
    eexists; eexists; unfold is_link; vm_compute; reflexivity.
Qed.
Lemma ex_wide2_links i s t : is_link ex_S ex_wide2 i s t -> In (mkLink i s t) [mkLink 5 0 0; mkLink 4 0 0; mkLink 3 3 2; mkLink 2 2 1; mkLink 1 3 3].
Proof. apply (ex_all _ _ _ _ _ _ ex_env ex_wide2_life). vm_compute; reflexivity. Qed.
Lemma ex_wide_life : slife ex_cf ref_tree_ops ref_list_ops ex_wide one one.
Proof.
  assert (L5 : is_link ex_S ex_wide2 5 0 0) by (unfold is_link; vm_compute; reflexivity).
  eapply slife_same.
  - apply (slife_update _ _ _ _ _ _ 5 1 4 unit cont tt ex_wide tt (Ok Continue) ex_wide2_life).
    + right. split; [|discriminate]. split; [left; exact L5|]. split; discriminate.
    + vm_compute; reflexivity.
  - intros j. split; [|now left]. intros [X|(_ & X & _)]; [exact X|discriminate X].
  - intros j. split; [|now left]. intros [X|(_ & X & _)]; [exact X|discriminate X].
Qed.
Lemma ex_wide_links i s t : is_link ex_S ex_wide i s t -> In (mkLink i s t) [mkLink 5 1 4; mkLink 4 0 0; mkLink 3 3 2; mkLink 2 2 1; mkLink 1 3 3].
Proof. apply (ex_all _ _ _ _ _ _ ex_env ex_wide_life). vm_compute; reflexivity. Qed.
Lemma ex_wide_separable j : separable ex_S ex_wide j.
Proof.
  right. intros x s t LJ LX. apply ex_wide_links in LJ, LX.
  destruct LJ as [Q|[Q|[Q|[Q|[Q|[]]]]]]; injection Q as <- <- <-; destruct LX as [Q|[Q|[Q|[Q|[Q|[]]]]]]; (discriminate Q || (injection Q as <-; reflexivity)).
Qed.
Ltac svl := first [unfold is_link; vm_compute; reflexivity | unfold no_link; vm_compute; reflexivity | vm_compute; reflexivity].

(** A case for all of the claims. *)
Lemma L_C98_nonvacuous : cfg_room ex_cf /\ exists st Ms Mt, slife ex_cf ref_tree_ops ref_list_ops st Ms Mt /\ Ms 1 /\ Mt 1 /\
  is_link ex_S st 1 3 3 /\ is_link ex_S st 2 2 1 /\ is_link ex_S st 3 3 2 /\ is_link ex_S st 4 0 0 /\ is_link ex_S st 5 1 4 /\
  (forall j, separable ex_S st j) /\ full_pair ex_cf 2 1 /\ (forall j, is_link ex_S st j 2 1 -> ~ Ms j /\ ~ Mt j) /\
  ~ Ms 4 /\ ~ Mt 4 /\ ~ Ms 2 /\ ~ Mt 2 /\
  (forall l, seen_user ex_S st Ms Mt 4 l <-> l = mkLink 5 1 4) /\ (forall l, seen_user ex_S st Ms Mt 2 l <-> l = mkLink 3 3 2) /\
  (forall x, ~ is_link ex_S st x 4 4) /\ (forall x, ~ is_link ex_S st x 2 2) /\
  (forall l, seen_user ex_S st Ms Mt 4 l -> forall k, ~ is_link ex_S st k (l_source (rebased 4 2 l)) (l_target (rebased 4 2 l))) /\
  li_update (unique_validator ex_cf ex_S) unit cont [4] [4; 2; 1] st tt = Val (st, tt, Err (AlreadyExists 2 1)) /\
  (exists st', li_update (unique_resolver ex_cf ex_S) _ record_calls [4] [4; 2; 1] st [] =
     Val (st', [(mkLink 4 0 0, nothing); (mkLink 2 2 1, mkLink 2 2 1)], Ok Continue) /\ no_link ex_S st' 4 /\ is_link ex_S st' 5 1 4) /\
  li_delete (usages_validator ex_cf ex_S) unit cont [4] st tt = Val (st, tt, Err (HasUsages [mkLink 5 1 4])) /\
  (exists st', li_delete (non_null_deletion_resolver ex_cf ex_S) _ record_calls [2] st [] =
     Val (st', [(mkLink 2 2 1, mkLink 2 0 0); (mkLink 2 0 0, nothing)], Ok Continue) /\ no_link ex_S st' 2 /\ is_link ex_S st' 3 3 2) /\
  (exists st', li_delete (cascade_usages_resolver ex_cf ex_S) _ record_calls [2] st [] =
     Val (st', [(mkLink 3 3 2, nothing); (mkLink 2 2 1, nothing)], Ok Continue) /\ no_link ex_S st' 3 /\ no_link ex_S st' 2) /\
  (exists st', li_update (cascade_unique_resolver ex_cf ex_S) _ record_calls [4] [4; 2; 1] st [] =
     Val (st', [(mkLink 5 1 4, mkLink 5 1 2); (mkLink 4 0 0, nothing); (mkLink 2 2 1, mkLink 2 2 1)], Ok Continue) /\
     no_link ex_S st' 4 /\ is_link ex_S st' 5 1 2).
Proof.
  split; [vm_compute; repeat split; discriminate|]. exists ex_wide, one, one. split; [exact ex_wide_life|]. split; [reflexivity|]. split; [reflexivity|].
  do 5 (split; [svl|]). split; [exact ex_wide_separable|]. split; [unfold full_pair; cbn; lia|].
  split. { intros j L. apply ex_wide_links in L. destruct L as [Q|[Q|[Q|[Q|[Q|[]]]]]]; try discriminate Q. injection Q as <-. split; discriminate. }
  do 4 (split; [discriminate|]).
  assert (S4 : forall l, seen_user ex_S ex_wide one one 4 l <-> l = mkLink 5 1 4).
  { intros [i s t]. split.
    - intros (LX & NX & U). cbn [l_index l_source l_target] in *. apply ex_wide_links in LX.
      destruct LX as [Q|[Q|[Q|[Q|[Q|[]]]]]]; injection Q as <- <- <-; try reflexivity; destruct U as [[U _]|[U _]]; discriminate U.
    - intros ->. split; [svl|]. split; [discriminate|]. right. split; [reflexivity|]. discriminate. }
  split; [exact S4|]. split.
  { intros [i s t]. split.
    - intros (LX & NX & U). cbn [l_index l_source l_target] in *. apply ex_wide_links in LX.
      destruct LX as [Q|[Q|[Q|[Q|[Q|[]]]]]]; injection Q as <- <- <-; try reflexivity; try (now elim NX); destruct U as [[U _]|[U _]]; discriminate U.
    - intros ->. split; [svl|]. split; [discriminate|]. right. split; [reflexivity|]. discriminate. }
  split. { intros x LX. apply ex_wide_links in LX. destruct LX as [Q|[Q|[Q|[Q|[Q|[]]]]]]; discriminate Q. }
  split. { intros x LX. apply ex_wide_links in LX. destruct LX as [Q|[Q|[Q|[Q|[Q|[]]]]]]; discriminate Q. }
  split. { intros l X k. apply S4 in X as ->. intros X. apply ex_wide_links in X. cbn in X. destruct X as [Q|[Q|[Q|[Q|[Q|[]]]]]]; discriminate Q. }
  split; [svl|]. split.
  { exists (out_st3 ex_wide (li_update (unique_resolver ex_cf ex_S) (list (link * link)) record_calls [4] [4; 2; 1] ex_wide [])). split; [svc|]. split; svl. }
  split; [svl|]. split.
  { exists (out_st3 ex_wide (li_delete (non_null_deletion_resolver ex_cf ex_S) (list (link * link)) record_calls [2] ex_wide [])). split; [svc|]. split; svl. }
  split.
  { exists (out_st3 ex_wide (li_delete (cascade_usages_resolver ex_cf ex_S) (list (link * link)) record_calls [2] ex_wide [])). split; [svc|]. split; svl. }
  exists (out_st3 ex_wide (li_update (cascade_unique_resolver ex_cf ex_S) (list (link * link)) record_calls [4] [4; 2; 1] ex_wide [])). split; [svc|]. split; svl.
Qed.

(** What the decorators are for is not kept: the pair of a misfiled link is given to another link by each of the three
    decorators for unique pairs, and a link with a misfiled user is deleted by both decorators that look at users. *)
Lemma L_C98_refuted : exists st Ms Mt, slife ex_cf ref_tree_ops ref_list_ops st Ms Mt /\ (forall j, separable ex_S st j) /\
  is_link ex_S st 1 3 3 /\ is_link ex_S st 2 2 1 /\ linked ex_S st 3 /\
  (exists st', li_update (unique_validator ex_cf ex_S) unit cont [2] [2; 3; 3] st tt = Val (st', tt, Ok Continue) /\
     is_link ex_S st' 1 3 3 /\ is_link ex_S st' 2 3 3) /\
  (exists st', li_update (unique_resolver ex_cf ex_S) unit cont [2] [2; 3; 3] st tt = Val (st', tt, Ok Continue) /\
     is_link ex_S st' 1 3 3 /\ is_link ex_S st' 2 3 3) /\
  (exists st', li_update (cascade_unique_resolver ex_cf ex_S) unit cont [2] [2; 3; 3] st tt = Val (st', tt, Ok Continue) /\
     is_link ex_S st' 1 3 3 /\ is_link ex_S st' 2 3 3) /\
  (exists st', li_delete (usages_validator ex_cf ex_S) unit cont [3] st tt = Val (st', tt, Ok Continue) /\
     no_link ex_S st' 3 /\ is_link ex_S st' 1 3 3) /\
  (exists st', li_delete (cascade_usages_resolver ex_cf ex_S) unit cont [3] st tt = Val (st', tt, Ok Continue) /\
     no_link ex_S st' 3 /\ is_link ex_S st' 1 3 3).
Proof.
  exists ex_mis, one, one. split; [exact ex_mis_life|]. split; [exact ex_mis_separable|]. split; [svl|]. split; [svl|].
  split; [exists 0, 0; svl|].
  split. { exists (out_st3 ex_mis (li_update (unique_validator ex_cf ex_S) unit cont [2] [2; 3; 3] ex_mis tt)). split; [svc|]. split; svl. }
  split. { exists (out_st3 ex_mis (li_update (unique_resolver ex_cf ex_S) unit cont [2] [2; 3; 3] ex_mis tt)). split; [svc|]. split; svl. }
  split. { exists (out_st3 ex_mis (li_update (cascade_unique_resolver ex_cf ex_S) unit cont [2] [2; 3; 3] ex_mis tt)). split; [svc|]. split; svl. }
  split. { exists (out_st3 ex_mis (li_delete (usages_validator ex_cf ex_S) unit cont [3] ex_mis tt)). split; [svc|]. split; svl. }
  exists (out_st3 ex_mis (li_delete (cascade_usages_resolver ex_cf ex_S) unit cont [3] ex_mis tt)). split; [svc|]. split; svl.
Qed.
