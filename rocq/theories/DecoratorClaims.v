(** Claims about the decorators, over every store that obeys the store contract. *)
From Coq Require Import NArith List Bool Lia Permutation Sorted.
From Verif Require Import Base Trees Lists TreeImpl Spec Iface Doublets DoubletsOK Obs Hist Claims Decorators
  UnitModel UnitInv UnitOps UnitLinks UnitHist UnitClaims GoodStore.
Import ListNotations.
Open Scope N_scope.

(** Updates through the unique decorators: the new pair is an actual pair. *)
Definition real_pair (cf : cfg) (s t : N) : Prop := s <> 0 /\ s <> c_any cf /\ t <> c_any cf.

Section Dec.
  Variable cf : cfg.
  Context {S : Type}.
  Variable I : LinksI S.
  Variable G : S -> Prop.
  Hypothesis GS : good_store cf I G.

  (** Histories through a decorator that leaves creation and deletion alone keep pairs
      distinct if its updates do. *)
  Lemma dec_hist (V : LinksI S) (okU : S -> N -> N -> N -> Prop) st0 :
    li_create V = li_create I -> li_delete V = li_delete I ->
    G st0 -> distinct_pairs I st0 ->
    (forall st H (h : whandler H) q ch i s t x st' x' r, G st -> distinct_pairs I st ->
       qget q 0 = Val i -> qget ch 1 = Val s -> qget ch 2 = Val t -> okU st i s t ->
       li_update V H h q ch st x = Val (st', x', r) -> G st' /\ distinct_pairs I st') ->
    forall st d, hist V (fun st => st = st0) (fun _ _ => False) okU (fun _ _ => True) st d ->
      G st /\ distinct_pairs I st.
  Proof.
    intros EC ED G0 D0 UP st d HH.
    assert (DEL : forall st H (h : whandler H) q i x st' x' r, G st -> distinct_pairs I st -> qget q 0 = Val i ->
       li_delete V H h q st x = Val (st', x', r) -> G st' /\ distinct_pairs I st').
    { intros st1 H h q i x st' x' r K D Q E. rewrite ED in E. destruct (gs_dec cf I G GS _ i K) as [(s & t & L)|L].
      - destruct (gs_delete cf I G GS _ q i s t K L (distinct_separable _ _ _ D) Q) as (st2 & K2 & C & NL & F). rewrite C in E.
        injection E as <- _ _. split; auto. eapply dist_remove; eauto.
      - pose proof (gs_delete_none cf I G GS _ _ _ K L Q) as F. rewrite F in E. injection E as <- _ _. auto. }
    induction HH as [st ->|st d H h q x st' x' r HH IH E|st d H h q ch i s t x st' x' r HH IH Q1 Q2 Q3 OKU E
      |st d H h q i x st' x' f HH IH Q _ E|st d H h q i x st' x' f HH IH Q _ E|st d st' HH IH []].
    - auto.
    - destruct IH as [K D]. rewrite EC in E.
      destruct (gs_create cf I G GS st q K) as [(st2 & e & K2 & SM & F)|(st2 & i & K2 & A & C)].
      + rewrite F in E. injection E as <- _ _. split; auto. eapply dist_same; eauto.
      + rewrite C in E. injection E as <- _ _. split; auto. destruct A as (_ & _ & L & FR).
        eapply (dist_set _ _ _ _ 0 0); eauto.
    - destruct IH as [K D]. eapply UP; eauto.
    - destruct IH as [K D]. eapply DEL; eauto.
    - destruct IH as [K D]. eapply DEL; eauto.
  Qed.

  (** ** UniqueValidator *)
  Lemma uv_held st q ch i j s t : G st -> real_pair cf s t -> is_link I st j s t ->
    qget q 0 = Val i -> qget ch 1 = Val s -> qget ch 2 = Val t ->
    fails_with (fun H h x => li_update (unique_validator cf I) H h q ch st x) st (AlreadyExists s t).
  Proof.
    intros K (S0 & SA & TA) L Q1 Q2 Q3 H h x. cbn [unique_validator li_update]. rewrite Q2, Q3. cbn [obind].
    destruct (gs_search cf I G GS st s t K S0 SA TA) as [(_ & _ & E)|(k & _ & E & _)]; [destruct (E j L)|].
    rewrite E. reflexivity.
  Qed.
  Lemma uv_free st q ch s t H h x : G st -> real_pair cf s t -> (forall j, ~ is_link I st j s t) ->
    qget ch 1 = Val s -> qget ch 2 = Val t ->
    li_update (unique_validator cf I) H h q ch st x = li_update I H h q ch st x.
  Proof.
    intros K (S0 & SA & TA) L Q2 Q3. cbn [unique_validator li_update]. rewrite Q2, Q3. cbn [obind].
    destruct (gs_search cf I G GS st s t K S0 SA TA) as [(_ & E & _)|(k & _ & _ & E)]; [|destruct (L k E)].
    rewrite E. reflexivity.
  Qed.
  Lemma held_dec st s t : G st -> real_pair cf s t -> (exists j, is_link I st j s t) \/ (forall j, ~ is_link I st j s t).
  Proof.
    intros K (S0 & SA & TA). destruct (gs_search cf I G GS st s t K S0 SA TA) as [(_ & _ & E)|(k & _ & _ & E)]; eauto.
  Qed.
  Lemma uv_hist st0 st d : G st0 -> distinct_pairs I st0 ->
    hist (unique_validator cf I) (fun st => st = st0) (fun _ _ => False) (fun _ _ s t => real_pair cf s t) (fun _ _ => True) st d ->
    G st /\ distinct_pairs I st.
  Proof.
    intros K0 D0. apply dec_hist; auto.
    intros st1 H h q ch i s t x st' x' r K D Q1 Q2 Q3 RP E.
    destruct (held_dec _ _ _ K RP) as [(j & L)|NH].
    - pose proof (uv_held _ q ch i j s t K RP L Q1 Q2 Q3) as F. rewrite F in E. injection E as <- _ _. auto.
    - rewrite (uv_free _ _ _ _ _ _ _ _ K RP NH Q2 Q3) in E. destruct (gs_dec cf I G GS _ i K) as [L|L].
      + destruct (gs_update cf I G GS _ q ch i s t K L (distinct_separable _ _ _ D) Q1 Q2 Q3) as (st2 & b & K2 & C & L2 & F).
        rewrite C in E. injection E as <- _ _. split; auto. eapply dist_set; eauto.
      + pose proof (gs_update_none cf I G GS _ q ch i s t K L Q1 Q2 Q3) as F. rewrite F in E. injection E as <- _ _. auto.
  Qed.

  (** ** UniqueResolver *)
  Notation UR := (unique_resolver cf I).
  Lemma ur_free st q ch i s t : G st -> real_pair cf s t -> (forall j, ~ is_link I st j s t) ->
    linked I st i -> separable I st i -> qget q 0 = Val i -> qget ch 1 = Val s -> qget ch 2 = Val t ->
    exists st' b, G st' /\ calls_once (fun H h x => li_update UR H h q ch st x) st' b (mkLink i s t) /\
      is_link I st' i s t /\ frame I st st' i.
  Proof.
    intros K (S0 & SA & TA) NH L SEP Q1 Q2 Q3.
    destruct (gs_update_with cf I G GS st i s t K L SEP) as (st' & b & K' & L' & F & C).
    exists st', b. split; auto. split; auto. intros H h x. cbn [unique_resolver li_update]. rewrite Q1, Q2, Q3. cbn [obind].
    destruct (gs_search cf I G GS st s t K S0 SA TA) as [(E & _)|(k & _ & _ & E)]; [|destruct (NH k E)].
    rewrite E. cbn [obind]. apply C.
  Qed.
  Lemma ur_missing st q ch i s t : G st -> real_pair cf s t -> no_link I st i ->
    qget q 0 = Val i -> qget ch 1 = Val s -> qget ch 2 = Val t ->
    fails_with (fun H h x => li_update UR H h q ch st x) st (NotExists i).
  Proof.
    intros K (S0 & SA & TA) L Q1 Q2 Q3 H h x. cbn [unique_resolver li_update]. rewrite Q1, Q2, Q3. cbn [obind].
    destruct (gs_search cf I G GS st s t K S0 SA TA) as [(E & _)|(k & E & _)]; rewrite E; cbn [obind].
    - now apply (gs_update_with_none cf I G GS).
    - unfold then_ok. rewrite (gs_delete_with_none cf I G GS); auto.
  Qed.
  Lemma ur_other st q ch i j s t s0 t0 : G st -> real_pair cf s t -> distinct_pairs I st ->
    is_link I st j s t -> j <> i -> is_link I st i s0 t0 ->
    qget q 0 = Val i -> qget ch 1 = Val s -> qget ch 2 = Val t ->
    exists st' b, G st' /\
      calls_twice (fun H h x => li_update UR H h q ch st x) st' (mkLink i s0 t0) nothing b (mkLink j s t) /\
      no_link I st' i /\ frame I st st' i.
  Proof.
    intros K (S0 & SA & TA) D LJ JI LI Q1 Q2 Q3.
    destruct (gs_delete_with cf I G GS st i s0 t0 K LI (distinct_separable _ _ _ D)) as (st1 & K1 & N1 & F1 & C1).
    assert (LJ1 : is_link I st1 j s t) by (now apply (link_frame _ _ _ _ _ _ _ F1 JI)).
    assert (D1 : distinct_pairs I st1) by (eapply dist_remove; eauto).
    destruct (gs_update_with cf I G GS st1 j s t K1 (ex_intro _ _ (ex_intro _ _ LJ1)) (distinct_separable _ _ _ D1)) as (st2 & b & K2 & L2 & F2 & C2).
    exists st2, b. split; auto. split; [|split].
    - intros H h x. cbn [unique_resolver li_update]. rewrite Q1, Q2, Q3. cbn [obind].
      destruct (gs_search cf I G GS st s t K S0 SA TA) as [(_ & _ & E)|(k & E & _ & LK)]; [destruct (E j LJ)|].
      assert (k = j) as -> by (apply (D k j s t LK LJ); congruence). rewrite E. cbn [obind]. unfold then_ok.
      destruct (C1 H h x) as (o & ->). cbn [obind]. apply C2.
    - unfold no_link. rewrite F2 by auto. exact N1.
    - intros k KI. destruct (N.eq_dec k j) as [->|KJ].
      + unfold is_link in L2, LJ. now rewrite L2, LJ.
      + rewrite F2, F1; auto.
  Qed.
  Lemma ur_own st q ch i s t : G st -> real_pair cf s t -> distinct_pairs I st -> is_link I st i s t ->
    qget q 0 = Val i -> qget ch 1 = Val s -> qget ch 2 = Val t ->
    exists st', G st' /\ no_link I st' i /\ frame I st st' i /\
      forall H (h : whandler H) x, li_update UR H h q ch st x =
        Val (st', fst (h x (mkLink i s t) nothing), Err (NotExists i)).
  Proof.
    intros K (S0 & SA & TA) D LI Q1 Q2 Q3.
    destruct (gs_delete_with cf I G GS st i s t K LI (distinct_separable _ _ _ D)) as (st1 & K1 & N1 & F1 & C1).
    exists st1. split; auto. split; auto. split; auto.
    intros H h x. cbn [unique_resolver li_update]. rewrite Q1, Q2, Q3. cbn [obind].
    destruct (gs_search cf I G GS st s t K S0 SA TA) as [(_ & _ & E)|(k & E & _ & LK)]; [destruct (E i LI)|].
    assert (k = i) as -> by (apply (D k i s t LK LI); congruence). rewrite E. cbn [obind]. unfold then_ok.
    destruct (C1 H h x) as (o & ->). cbn [obind]. now apply (gs_update_with_none cf I G GS).
  Qed.
  Lemma ur_hist st0 st d : G st0 -> distinct_pairs I st0 ->
    hist UR (fun st => st = st0) (fun _ _ => False) (fun _ _ s t => real_pair cf s t) (fun _ _ => True) st d ->
    G st /\ distinct_pairs I st.
  Proof.
    intros K0 D0. apply dec_hist; auto.
    intros st1 H h q ch i s t x st' x' r K D Q1 Q2 Q3 RP E.
    destruct (gs_dec cf I G GS _ i K) as [L|L].
    2:{ pose proof (ur_missing _ q ch i s t K RP L Q1 Q2 Q3) as F. rewrite F in E. injection E as <- _ _. auto. }
    destruct (held_dec _ _ _ K RP) as [(j & LJ)|NH].
    - destruct (N.eq_dec j i) as [->|JI].
      + destruct (ur_own _ q ch i s t K RP D LJ Q1 Q2 Q3) as (st2 & K2 & N2 & F2 & C). rewrite C in E. injection E as <- _ _.
        split; auto. eapply dist_remove; eauto.
      + destruct L as (s0 & t0 & L). destruct (ur_other _ q ch i j s t s0 t0 K RP D LJ JI L Q1 Q2 Q3) as (st2 & b & K2 & C & N2 & F2).
        rewrite C in E. injection E as <- _ _. split; auto. eapply dist_remove; eauto.
    - destruct (ur_free _ q ch i s t K RP NH L (distinct_separable _ _ _ D) Q1 Q2 Q3) as (st2 & b & K2 & C & L2 & F2).
      rewrite C in E. injection E as <- _ _. split; auto. eapply dist_set; eauto.
  Qed.

  (** ** UsagesValidator *)
  Notation UV := (usages_validator cf I).
  Lemma get_all_ok st L : (forall l, In l L -> li_get I st (l_index l) = Val (Some l)) ->
    get_all I st (map l_index L) = Val (Ok L).
  Proof.
    induction L as [|l L IH]; intros A; [reflexivity|]. cbn [map get_all]. unfold d_try_get_link.
    rewrite A by now left. cbn [obind]. rewrite IH by (intros; apply A; now right). reflexivity.
  Qed.
  Lemma if_unused_used st q i l : G st -> linked I st i -> user I st i l ->
    qget q 0 = Val i -> exists L, (forall l, In l L <-> user I st i l) /\
    forall H A (x : H) (k : out (S * H * result A)), if_unused cf I q st x k = Val (st, x, Err (HasUsages L)).
  Proof.
    intros K LI U Q. destruct (gs_usages cf I G GS st i K LI) as (L & E & IN). exists L. split; auto.
    intros H A x k. unfold if_unused. rewrite (ok_ipart _ (proj1 GS)), Q. cbn [obind]. rewrite E. cbn [obind].
    pose proof (get_all_ok st L) as GA. destruct L as [|l0 L]; [apply IN in U; destruct U|].
    cbn [map] in GA |- *. rewrite GA; [reflexivity|]. intros l1 Hl. apply IN in Hl. apply Hl.
  Qed.
  Lemma if_unused_free st q i H A (x : H) (k : out (S * H * result A)) : G st -> linked I st i ->
    (forall l, ~ user I st i l) -> qget q 0 = Val i -> if_unused cf I q st x k = k.
  Proof.
    intros K LI U Q. destruct (gs_usages cf I G GS st i K LI) as (L & E & IN).
    unfold if_unused. rewrite (ok_ipart _ (proj1 GS)), Q. cbn [obind]. rewrite E. cbn [obind].
    destruct L as [|l0 L]; [reflexivity|]. exfalso. apply (U l0). apply IN. now left.
  Qed.
  Lemma if_unused_none st q i H A (x : H) (k : out (S * H * result A)) : G st -> no_link I st i ->
    qget q 0 = Val i -> if_unused cf I q st x k = Val (st, x, Err (NotExists i)).
  Proof.
    intros K LI Q. unfold if_unused. rewrite (ok_ipart _ (proj1 GS)), Q. cbn [obind].
    rewrite (gs_usages_none cf I G GS st i K LI). reflexivity.
  Qed.
End Dec.

(** ** Concrete stores for the examples *)
Definition out_res {S H A} (o : out (S * H * A)) : option (H * A) :=
  match o with Val (_, x, r) => Some (x, r) | _ => None end.
Definition out_st3 {S H A} (d : S) (o : out (S * H * A)) : S := match o with Val (st, _, _) => st | _ => d end.
Lemma out_ok {S H A} (d : S) (o : out (S * H * A)) x r : out_res o = Some (x, r) -> o = Val (out_st3 d o, x, r).
Proof. destruct o as [[[st y] r']| | |]; cbn; congruence. Qed.

Lemma ex_links l : acheck a_empty l = true ->
  match run ex_U l ex_start with Some _ => true | None => false end = true ->
  forall i s t, is_link ex_U (ex_st l) i s t <-> In (mkLink i s t) (alinks (arun a_empty l)).
Proof.
  intros A E i s t. destruct (ex_reach l A E) as (d & _ & K). pose proof (e_ok _ _ _ ex_env) as OK.
  rewrite (in_alinks _ _ _ _ (lo_wf _ _ _ _ OK _ _ K)). apply (ob_link ex_cf _ _ _ OK _ _ _ _ _ K).
Qed.
Lemma ex_good : good_store ex_cf ex_U (fun st => exists d, u_hist ex_cf ref_tree_ops ref_list_ops st d).
Proof. exact (unit_good _ _ _ ex_env ex_cf_room). Qed.

(** 1: 1->1, 2: 1->2, 3: 2->1, 4: 3->1 *)
Definition ex4c : list cmd := [Cr; Cr; Cr; Cr; Up 1 1 1; Up 2 1 2; Up 3 2 1; Up 4 3 1].
Lemma ex4c_reach : exists d, u_hist ex_cf ref_tree_ops ref_list_ops (ex_st ex4c) d /\ distinct_pairs ex_U (ex_st ex4c).
Proof.
  destruct (ex_reach ex4c) as (d & HH & _); [vm_compute; reflexivity..|]. exists d. split; auto.
  apply ex_distinct; vm_compute; reflexivity.
Qed.
(** 1: 1->1, 2: 1->2, 3: 2->1, 4: 3->4 *)
Definition ex4d : list cmd := [Cr; Cr; Cr; Cr; Up 1 1 1; Up 2 1 2; Up 3 2 1; Up 4 3 4].
Lemma ex4d_reach : exists d, u_hist ex_cf ref_tree_ops ref_list_ops (ex_st ex4d) d /\ distinct_pairs ex_U (ex_st ex4d).
Proof.
  destruct (ex_reach ex4d) as (d & HH & _); [vm_compute; reflexivity..|]. exists d. split; auto.
  apply ex_distinct; vm_compute; reflexivity.
Qed.
Ltac vmr := vm_compute; reflexivity.
(** one conjunct of an example *)
Ltac vmc := first [apply out_ok; vmr | vmr].
(** no link of the store holds the pair *)
Ltac nolink l := intros; let K := fresh in intros K; apply (ex_links l) in K; [|vmr|vmr];
  vm_compute in K; intuition congruence.

(** * C36 UniqueValidator *)
(** An update to a pair held by a link fails with AlreadyExists and changes nothing; an update
    to a free pair is passed through; a store with distinct pairs keeps them through any
    sequence of operations.  Missing: an update of a link to its own pair is refused too, and
    pairs with null source are not seen (next theorem). *)
Lemma L_C36_unique_validator_partial cf S (I : LinksI S) G st :
  good_store cf I G -> G st ->
  (forall q ch i j s t, real_pair cf s t -> is_link I st j s t ->
     qget q 0 = Val i -> qget ch 1 = Val s -> qget ch 2 = Val t ->
     fails_with (fun H h x => li_update (unique_validator cf I) H h q ch st x) st (AlreadyExists s t)) /\
  (forall q ch s t, real_pair cf s t -> (forall j, ~ is_link I st j s t) ->
     qget ch 1 = Val s -> qget ch 2 = Val t ->
     forall H (h : whandler H) x,
       li_update (unique_validator cf I) H h q ch st x = li_update I H h q ch st x) /\
  (distinct_pairs I st -> forall st' d,
     hist (unique_validator cf I) (fun s => s = st) (fun _ _ => False) (fun _ _ s t => real_pair cf s t) (fun _ _ => True) st' d ->
     distinct_pairs I st').
Proof.
  intros GS K. split; [|split].
  - intros. eapply uv_held; eauto.
  - intros. eapply uv_free; eauto.
  - intros D st' d HH. now apply (uv_hist cf I G GS st st' d).
Qed.
Lemma L_C36_nonvacuous : exists st,
  good_store ex_cf ex_U (fun st => exists d, u_hist ex_cf ref_tree_ops ref_list_ops st d) /\
  (exists d, u_hist ex_cf ref_tree_ops ref_list_ops st d) /\ distinct_pairs ex_U st /\
  is_link ex_U st 2 1 2 /\ is_link ex_U st 3 2 1 /\ real_pair ex_cf 1 2 /\ (forall j, ~ is_link ex_U st j 2 2) /\
  li_update (unique_validator ex_cf ex_U) unit cont [3] [3; 1; 2] st tt = Val (st, tt, Err (AlreadyExists 1 2)) /\
  exists st', li_update (unique_validator ex_cf ex_U) unit cont [3] [3; 2; 2] st tt = Val (st', tt, Ok Continue) /\
    is_link ex_U st' 3 2 2.
Proof.
  destruct ex3_reach as (d & HH & DP & L1 & L2 & L3). exists (ex_st ex3). split; [exact ex_good|]. split; [eauto|].
  split; [exact DP|]. split; [exact L2|]. split; [exact L3|]. split; [unfold real_pair; cbn; lia|].
  split; [nolink ex3|]. split; [vmr|].
  exists (out_st3 (ex_st ex3) (li_update (unique_validator ex_cf ex_U) unit cont [3] [3; 2; 2] (ex_st ex3) tt)).
  split; vmc.
Qed.

(** Updating a link to the pair it holds already is refused, and two links can get the same
    pair (0, t). *)
Lemma L_C36_unique_validator_refuted :
  (exists st d i s t, u_hist ex_cf ref_tree_ops ref_list_ops st d /\ distinct_pairs ex_U st /\ is_link ex_U st i s t /\
     (forall j, j <> i -> ~ is_link ex_U st j s t) /\
     li_update (unique_validator ex_cf ex_U) unit cont [i] [i; s; t] st tt = Val (st, tt, Err (AlreadyExists s t))) /\
  (exists st d i s t st', u_hist ex_cf ref_tree_ops ref_list_ops st d /\ distinct_pairs ex_U st /\
     li_update (unique_validator ex_cf ex_U) unit cont [i] [i; s; t] st tt = Val (st', tt, Ok Continue) /\
     ~ distinct_pairs ex_U st').
Proof.
  split.
  - destruct ex3_reach as (d & HH & DP & L1 & L2 & L3). exists (ex_st ex3), d, 2, 1, 2. split; [exact HH|]. split; [exact DP|].
    split; [exact L2|]. split; [nolink ex3|]. vmr.
  - pose (l := [Cr; Cr; Up 1 0 5]). destruct (ex_reach l) as (d & HH & _); [vmr..|].
    exists (ex_st l), d, 2, 0, 5, (out_st3 (ex_st l) (li_update (unique_validator ex_cf ex_U) unit cont [2] [2; 0; 5] (ex_st l) tt)).
    split; [exact HH|]. split; [apply ex_distinct; vmr|]. split; [vmc|].
    intros D. assert (1 = 2); [|discriminate]. apply (D 1 2 0 5); [vmr|vmr|discriminate].
Qed.

(** * C37 UniqueResolver *)
(** Updating i to a pair held by another link j deletes i and leaves j and all others, the
    handler being told of both steps; other updates are passed through; distinct pairs
    stay distinct through any sequence of operations.  Missing: an update of a link to its own
    pair (next theorem), pairs with null source. *)
Lemma L_C37_unique_resolver_partial cf S (I : LinksI S) G st :
  good_store cf I G -> G st ->
  (forall q ch i j s t s0 t0, real_pair cf s t -> distinct_pairs I st ->
     is_link I st j s t -> j <> i -> is_link I st i s0 t0 ->
     qget q 0 = Val i -> qget ch 1 = Val s -> qget ch 2 = Val t ->
     exists st' b, G st' /\
       calls_twice (fun H h x => li_update (unique_resolver cf I) H h q ch st x) st' (mkLink i s0 t0) nothing b (mkLink j s t) /\
       no_link I st' i /\ frame I st st' i) /\
  (forall q ch i s t, real_pair cf s t -> (forall j, ~ is_link I st j s t) -> linked I st i -> separable I st i ->
     qget q 0 = Val i -> qget ch 1 = Val s -> qget ch 2 = Val t ->
     exists st' b, G st' /\ calls_once (fun H h x => li_update (unique_resolver cf I) H h q ch st x) st' b (mkLink i s t) /\
       is_link I st' i s t /\ frame I st st' i) /\
  (forall q ch i s t, real_pair cf s t -> no_link I st i ->
     qget q 0 = Val i -> qget ch 1 = Val s -> qget ch 2 = Val t ->
     fails_with (fun H h x => li_update (unique_resolver cf I) H h q ch st x) st (NotExists i)) /\
  (distinct_pairs I st -> forall st' d,
     hist (unique_resolver cf I) (fun s => s = st) (fun _ _ => False) (fun _ _ s t => real_pair cf s t) (fun _ _ => True) st' d ->
     distinct_pairs I st').
Proof.
  intros GS K. split; [|split; [|split]].
  - intros. eapply ur_other; eauto.
  - intros. eapply ur_free; eauto.
  - intros. eapply ur_missing; eauto.
  - intros D st' d HH. now apply (ur_hist cf I G GS st st' d).
Qed.
Lemma L_C37_nonvacuous : exists st st',
  good_store ex_cf ex_U (fun st => exists d, u_hist ex_cf ref_tree_ops ref_list_ops st d) /\
  (exists d, u_hist ex_cf ref_tree_ops ref_list_ops st d) /\ distinct_pairs ex_U st /\
  is_link ex_U st 2 1 2 /\ is_link ex_U st 3 2 1 /\ real_pair ex_cf 1 2 /\
  li_update (unique_resolver ex_cf ex_U) unit cont [3] [3; 1; 2] st tt = Val (st', tt, Ok Continue) /\
  no_link ex_U st' 3 /\ is_link ex_U st' 2 1 2.
Proof.
  destruct ex3_reach as (d & HH & DP & L1 & L2 & L3).
  exists (ex_st ex3), (out_st3 (ex_st ex3) (li_update (unique_resolver ex_cf ex_U) unit cont [3] [3; 1; 2] (ex_st ex3) tt)).
  split; [exact ex_good|]. split; [eauto|]. split; [exact DP|]. split; [exact L2|]. split; [exact L3|].
  split; [unfold real_pair; cbn; lia|]. split; [vmc|]. split; vmr.
Qed.

(** Updating any link to the pair it holds already deletes it and fails. *)
Lemma L_C37_unique_resolver_own_pair cf S (I : LinksI S) G st q ch i s t :
  good_store cf I G -> G st -> real_pair cf s t -> distinct_pairs I st -> is_link I st i s t ->
  qget q 0 = Val i -> qget ch 1 = Val s -> qget ch 2 = Val t ->
  exists st', G st' /\ no_link I st' i /\ frame I st st' i /\
    forall H (h : whandler H) x, li_update (unique_resolver cf I) H h q ch st x =
      Val (st', fst (h x (mkLink i s t) nothing), Err (NotExists i)).
Proof. intros GS K. intros. eapply ur_own; eauto. Qed.
Lemma L_C37_unique_resolver_refuted : exists st d st',
  u_hist ex_cf ref_tree_ops ref_list_ops st d /\ distinct_pairs ex_U st /\ is_link ex_U st 2 1 2 /\
  (forall j, j <> 2 -> ~ is_link ex_U st j 1 2) /\
  li_update (unique_resolver ex_cf ex_U) unit cont [2] [2; 1; 2] st tt = Val (st', tt, Err (NotExists 2)) /\
  no_link ex_U st' 2.
Proof.
  destruct ex3_reach as (d & HH & DP & L1 & L2 & L3).
  exists (ex_st ex3), d, (out_st3 (ex_st ex3) (li_update (unique_resolver ex_cf ex_U) unit cont [2] [2; 1; 2] (ex_st ex3) tt)).
  split; [exact HH|]. split; [exact DP|]. split; [exact L2|]. split; [nolink ex3|]. split; [vmc|vmr].
Qed.

(** * C38 UsagesValidator *)
(** Delete of a link used by another one fails with HasUsages, listing exactly the users, and
    changes nothing; otherwise it deletes that link only, and afterwards no link refers to it. *)
Lemma L_C38_usages_validator cf S (I : LinksI S) G st q i :
  good_store cf I G -> G st -> qget q 0 = Val i ->
  (forall l, linked I st i -> user I st i l ->
     exists L, (forall k, In k L <-> user I st i k) /\
       fails_with (fun H h x => li_delete (usages_validator cf I) H h q st x) st (HasUsages L)) /\
  (forall s t, is_link I st i s t -> separable I st i -> (forall l, ~ user I st i l) ->
     exists st', G st' /\
       calls_once (fun H h x => li_delete (usages_validator cf I) H h q st x) st' (mkLink i s t) nothing /\
       no_link I st' i /\ frame I st st' i /\
       forall j s' t', is_link I st' j s' t' -> s' <> i /\ t' <> i) /\
  (no_link I st i -> fails_with (fun H h x => li_delete (usages_validator cf I) H h q st x) st (NotExists i)).
Proof.
  intros GS K Q. split; [|split].
  - intros l LI U. destruct (if_unused_used cf I G GS st q i l K LI U Q) as (L & IN & E). exists L. split; auto.
    intros H h x. apply E.
  - intros s t LI SEP NU. destruct (gs_delete cf I G GS st q i s t K LI SEP Q) as (st' & K' & C & N' & F).
    exists st'. split; auto. split; [|split; auto; split; auto].
    + intros H h x. cbn [usages_validator li_delete]. rewrite (if_unused_free cf I G GS) with (i := i); auto.
      exists s, t; auto.
    + intros j s' t' L. assert (JI : j <> i) by (intros ->; exact (link_no _ _ _ _ _ L N')).
      apply (link_frame _ _ _ _ _ _ _ F JI) in L.
      split; intros ->; apply (NU (mkLink j s' t')) || idtac.
      * apply (NU (mkLink j i t')). split; [exact L|]. cbn. auto.
      * apply (NU (mkLink j s' i)). split; [exact L|]. cbn. auto.
  - intros N H h x. cbn [usages_validator li_delete]. eapply if_unused_none; eauto.
Qed.
Lemma L_C38_nonvacuous : exists st st' L,
  good_store ex_cf ex_U (fun st => exists d, u_hist ex_cf ref_tree_ops ref_list_ops st d) /\
  (exists d, u_hist ex_cf ref_tree_ops ref_list_ops st d) /\ distinct_pairs ex_U st /\
  is_link ex_U st 2 1 2 /\ is_link ex_U st 3 2 1 /\
  li_delete (usages_validator ex_cf ex_U) unit cont [2] st tt = Val (st, tt, Err (HasUsages L)) /\ L = [mkLink 3 2 1] /\
  li_delete (usages_validator ex_cf ex_U) unit cont [3] st tt = Val (st', tt, Ok Continue) /\ no_link ex_U st' 3.
Proof.
  destruct ex3_reach as (d & HH & DP & L1 & L2 & L3).
  exists (ex_st ex3), (out_st3 (ex_st ex3) (li_delete (usages_validator ex_cf ex_U) unit cont [3] (ex_st ex3) tt)), [mkLink 3 2 1].
  split; [exact ex_good|]. split; [eauto|]. split; [exact DP|]. split; [exact L2|]. split; [exact L3|].
  split; [vmr|]. split; [reflexivity|]. split; [vmc|vmr].
Qed.

(** Updates of used links are refused in the same way. *)
Lemma L_C38_updates_refused_too cf S (I : LinksI S) G st q ch i l :
  good_store cf I G -> G st -> qget q 0 = Val i -> linked I st i -> user I st i l ->
  exists L, (forall k, In k L <-> user I st i k) /\
    fails_with (fun H h x => li_update (usages_validator cf I) H h q ch st x) st (HasUsages L).
Proof.
  intros GS K Q LI U. destruct (if_unused_used cf I G GS st q i l K LI U Q) as (L & IN & E). exists L. split; auto.
  intros H h x. apply E.
Qed.

(** * C39 NonNullDeletionResolver *)
(** A delete removes exactly that link; the handler is told first of the update to (0, 0) and
    then of the deletion of the null link. *)
Lemma L_C39_non_null_deletion cf S (I : LinksI S) G st q i :
  good_store cf I G -> G st -> qget q 0 = Val i ->
  (linked I st i -> separable I st i -> exists st' b, G st' /\
     calls_twice (fun H h x => li_delete (non_null_deletion_resolver cf I) H h q st x) st'
       b (mkLink i 0 0) (mkLink i 0 0) nothing /\
     no_link I st' i /\ frame I st st' i) /\
  (no_link I st i -> fails_with (fun H h x => li_delete (non_null_deletion_resolver cf I) H h q st x) st (NotExists i)).
Proof.
  intros GS K Q. pose proof (ok_null _ (proj1 GS)) as NU. split.
  - intros LI SEP. destruct (gs_update cf I G GS st q [i; 0; 0] i 0 0 K LI SEP Q eq_refl eq_refl) as (st1 & b & K1 & C1 & L1 & F1).
    destruct (gs_delete cf I G GS st1 q i 0 0 K1 L1 (or_introl L1) Q) as (st2 & K2 & C2 & N2 & F2).
    exists st2, b. split; auto. split; [|split; auto].
    + intros H h x. cbn [non_null_deletion_resolver li_delete]. rewrite Q. cbn [obind]. rewrite NU.
      unfold then_ok, d_update_by_with. rewrite (wadapt_once _ _ _ _ _ _ _ _ C1). cbn [obind]. rewrite uw_fst. apply C2.
    + intros j J. now rewrite F2, F1.
  - intros N H h x. cbn [non_null_deletion_resolver li_delete]. rewrite Q. cbn [obind]. rewrite NU.
    pose proof (gs_update_none cf I G GS st q [i; 0; 0] i 0 0 K N Q eq_refl eq_refl) as C.
    unfold then_ok, d_update_by_with. now rewrite (wadapt_fail _ _ _ _ _ _ _ C).
Qed.
Lemma L_C39_nonvacuous : exists st st',
  good_store ex_cf ex_U (fun st => exists d, u_hist ex_cf ref_tree_ops ref_list_ops st d) /\
  (exists d, u_hist ex_cf ref_tree_ops ref_list_ops st d) /\ distinct_pairs ex_U st /\ is_link ex_U st 2 1 2 /\
  li_delete (non_null_deletion_resolver ex_cf ex_U) (list (link * link)) (fun l b a => (l ++ [(b, a)], Continue)) [2] st []
    = Val (st', [(mkLink 2 0 0, mkLink 2 0 0); (mkLink 2 0 0, nothing)], Ok Continue) /\
  no_link ex_U st' 2.
Proof.
  destruct ex3_reach as (d & HH & DP & L1 & L2 & L3).
  exists (ex_st ex3), (out_st3 (ex_st ex3) (li_delete (non_null_deletion_resolver ex_cf ex_U) (list (link * link)) (fun l b a => (l ++ [(b, a)], Continue)) [2] (ex_st ex3) [])).
  split; [exact ex_good|]. split; [eauto|]. split; [exact DP|]. split; [exact L2|]. split; [vmc|vmr].
Qed.

(** * C40 CascadeUsagesResolver *)
(** A delete of i, where no other link has i at both ends, deletes i and the links that use it,
    and nothing else; afterwards no link refers to i.  Missing: the users of the users
    (and links with i at both ends), see the next theorems. *)
Lemma L_C40_cascade_usages_partial cf S (I : LinksI S) G st q i s t :
  good_store cf I G -> G st -> qget q 0 = Val i -> is_link I st i s t ->
  separable I st i -> (forall l, user I st i l -> separable I st (l_index l)) ->
  (forall x, x <> i -> ~ is_link I st x i i) ->
  exists st' L, G st' /\ (forall l, In l L <-> user I st i l) /\ removed I st st' (mkLink i s t :: L) /\
    (forall H (h : whandler H) x, exists x' f,
       li_delete (cascade_usages_resolver cf I) H h q st x = Val (st', x', Ok f)) /\
    forall j s' t', is_link I st' j s' t' -> s' <> i /\ t' <> i.
Proof.
  intros GS K Q LI D0 D NB. assert (LK : linked I st i) by (exists s, t; auto).
  destruct (gs_delete_usages cf I G GS st i K LK D NB) as (st1 & L & K1 & ND & IN & RM & E).
  assert (NI : ~ In i (map l_index L)).
  { intros M. apply in_map_iff in M as (l & EI & M). apply IN in M. destruct M as (_ & M & _). congruence. }
  assert (L1 : is_link I st1 i s t).
  { unfold is_link. rewrite RM. destruct (in_dec N.eq_dec i (map l_index L)); [contradiction|exact LI]. }
  assert (D1 : separable I st1 i).
  { assert (LS : forall j s' t', is_link I st1 j s' t' -> is_link I st j s' t').
    { intros j s' t' A. unfold is_link in A. rewrite RM in A. destruct (in_dec N.eq_dec j (map l_index L)); [discriminate|exact A]. }
    destruct D0 as [D0|D0]; [left|right; intros j s2 t2 A B; exact (D0 j s2 t2 (LS _ _ _ A) (LS _ _ _ B))].
    unfold is_link. rewrite RM. destruct (in_dec N.eq_dec i (map l_index L)); [contradiction|exact D0]. }
  destruct (gs_delete cf I G GS st1 q i s t K1 L1 D1 Q) as (st2 & K2 & C & N2 & F).
  assert (RM2 : removed I st st2 (mkLink i s t :: L)).
  { intros j. cbn [map l_index]. destruct (N.eq_dec j i) as [->|J].
    - destruct (in_dec N.eq_dec i (i :: map l_index L)) as [|X]; [exact N2|exfalso; apply X; now left].
    - rewrite F, RM by auto.
      destruct (in_dec N.eq_dec j (map l_index L)) as [A|A], (in_dec N.eq_dec j (i :: map l_index L)) as [B|B]; auto.
      + exfalso. apply B. now right.
      + destruct B as [B|B]; [congruence|contradiction]. }
  exists st2, L. split; auto. split; auto. split; auto. split.
  - intros H h x. cbn [cascade_usages_resolver li_delete]. rewrite Q. cbn [obind]. unfold then_ok. rewrite E. cbn [obind].
    rewrite C. eauto.
  - intros j s' t' A. assert (A' := A). unfold is_link in A'. rewrite RM2 in A'. cbn [map l_index] in A'.
    destruct (in_dec N.eq_dec j (i :: map l_index L)) as [|B]; [discriminate|].
    assert (NU : ~ user I st i (mkLink j s' t')).
    { intros U. apply B. right. apply IN in U. apply in_map_iff. exists (mkLink j s' t'). auto. }
    assert (JI : j <> i) by (intros ->; apply B; now left).
    split; intros ->; apply NU; (split; [exact A'|cbn; auto]).
Qed.
Lemma L_C40_nonvacuous : exists st st',
  good_store ex_cf ex_U (fun st => exists d, u_hist ex_cf ref_tree_ops ref_list_ops st d) /\
  (exists d, u_hist ex_cf ref_tree_ops ref_list_ops st d) /\ distinct_pairs ex_U st /\
  is_link ex_U st 2 1 2 /\ is_link ex_U st 3 2 1 /\ (forall x, x <> 2 -> ~ is_link ex_U st x 2 2) /\
  li_delete (cascade_usages_resolver ex_cf ex_U) unit cont [2] st tt = Val (st', tt, Ok Continue) /\
  no_link ex_U st' 2 /\ no_link ex_U st' 3 /\ is_link ex_U st' 1 1 1.
Proof.
  destruct ex3_reach as (d & HH & DP & L1 & L2 & L3).
  exists (ex_st ex3), (out_st3 (ex_st ex3) (li_delete (cascade_usages_resolver ex_cf ex_U) unit cont [2] (ex_st ex3) tt)).
  split; [exact ex_good|]. split; [eauto|]. split; [exact DP|]. split; [exact L2|]. split; [exact L3|].
  split; [nolink ex3|]. split; [vmc|]. split; [vmr|]. split; vmr.
Qed.

(** Whenever another link has i at both ends, the delete fails. *)
Lemma L_C40_cascade_usages_double cf S (I : LinksI S) G st q i x :
  good_store cf I G -> G st -> qget q 0 = Val i -> linked I st i -> (forall l, user I st i l -> separable I st (l_index l)) ->
  x <> i -> is_link I st x i i ->
  exists st', G st' /\ li_delete (cascade_usages_resolver cf I) unit cont q st tt = Val (st', tt, Err (NotExists x)).
Proof.
  intros GS K Q LI D XI LX. destruct (gs_delete_usages_double cf I G GS st i x K LI D XI LX) as (st' & K' & E).
  exists st'. split; auto. unfold d_delete_usages in E. cbn [cascade_usages_resolver li_delete]. rewrite Q. cbn [obind].
  unfold then_ok. change (@uw_of unit cont) with (fun (x : unit) (_ _ : link) => (x, @None unit)).
  destruct (d_delete_usages_with cf I (fun (x : unit) (_ _ : link) => (x, None)) i st tt) as [[[st2 []] r]| | |]; try discriminate.
  cbn [obind] in E |- *. injection E as -> ->. reflexivity.
Qed.
(** The users of a deleted user are left dangling, and a link with i at both ends makes the
    delete fail. *)
Lemma L_C40_cascade_usages_refuted :
  (exists st d st', u_hist ex_cf ref_tree_ops ref_list_ops st d /\ distinct_pairs ex_U st /\
     (forall x, x <> 2 -> ~ is_link ex_U st x 2 2) /\
     li_delete (cascade_usages_resolver ex_cf ex_U) unit cont [2] st tt = Val (st', tt, Ok Continue) /\
     exists j s t, is_link ex_U st' j s t /\ is_link ex_U st j s t /\ linked ex_U st s /\ no_link ex_U st' s) /\
  (exists st d st', u_hist ex_cf ref_tree_ops ref_list_ops st d /\ distinct_pairs ex_U st /\ linked ex_U st 1 /\
     li_delete (cascade_usages_resolver ex_cf ex_U) unit cont [1] st tt = Val (st', tt, Err (NotExists 2)) /\
     linked ex_U st' 1).
Proof.
  split.
  - destruct ex4c_reach as (d & HH & DP).
    exists (ex_st ex4c), d, (out_st3 (ex_st ex4c) (li_delete (cascade_usages_resolver ex_cf ex_U) unit cont [2] (ex_st ex4c) tt)).
    split; [exact HH|]. split; [exact DP|]. split; [nolink ex4c|]. split; [vmc|].
    exists 4, 3, 1. split; [vmr|]. split; [vmr|]. split; [exists 2, 1; vmr|vmr].
  - pose (l := [Cr; Cr; Up 2 1 1]). destruct (ex_reach l) as (d & HH & _); [vmr..|].
    exists (ex_st l), d, (out_st3 (ex_st l) (li_delete (cascade_usages_resolver ex_cf ex_U) unit cont [1] (ex_st l) tt)).
    split; [exact HH|]. split; [apply ex_distinct; vmr|]. split; [exists 0, 0; vmr|]. split; [vmc|]. exists 0, 0; vmr.
Qed.

(** * C41 CascadeUniqueResolver *)
(** Updating i to a pair (s, t) held by another link j redirects the usages of i to j and
    deletes i, provided neither s nor t is i, no other link has i at both ends and redirecting
    makes no duplicate pairs; an update to a free pair is passed through. *)
Lemma L_C41_cascade_unique_partial cf S (I : LinksI S) G st q ch i s t :
  good_store cf I G -> G st -> real_pair cf s t ->
  qget q 0 = Val i -> qget ch 1 = Val s -> qget ch 2 = Val t ->
  (forall j, distinct_pairs I st -> linked I st i -> is_link I st j s t -> j <> i -> s <> i -> t <> i ->
     (forall x, x <> i -> ~ is_link I st x i i) ->
     (forall k k' s t, moved I st i j k s t -> moved I st i j k' s t -> (s, t) <> (0, 0) -> k = k') ->
     exists st', G st' /\ no_link I st' i /\
       (forall k s' t', k <> i -> (is_link I st' k s' t' <-> moved I st i j k s' t')) /\
       forall H (h : whandler H) x, exists x' f,
         li_update (cascade_unique_resolver cf I) H h q ch st x = Val (st', x', Ok f)) /\
  ((forall j, ~ is_link I st j s t) -> linked I st i -> separable I st i ->
     exists st' b, G st' /\
       calls_once (fun H h x => li_update (cascade_unique_resolver cf I) H h q ch st x) st' b (mkLink i s t) /\
       is_link I st' i s t /\ frame I st st' i) /\
  (no_link I st i -> fails_with (fun H h x => li_update (cascade_unique_resolver cf I) H h q ch st x) st (NotExists i)).
Proof.
  intros GS K (S0 & SA & TA) Q1 Q2 Q3. split; [|split].
  - intros j D LI LJ JI SI TI NB FD.
    destruct (gs_rebase cf I G GS st i j K (fun E => JI (eq_sym E)) LI D NB FD) as (st1 & K1 & M1 & E1).
    destruct LI as (s0 & t0 & LI).
    assert (LI1 : is_link I st1 i s0 t0).
    { apply M1. exists s0, t0. rewrite N.eqb_refl. auto. }
    assert (D1 : distinct_pairs I st1).
    { intros k k' s' t' A B. apply M1 in A, B. now apply FD. }
    destruct (gs_delete_with cf I G GS st1 i s0 t0 K1 LI1 (distinct_separable _ _ _ D1)) as (st2 & K2 & N2 & F2 & E2).
    assert (D2 : distinct_pairs I st2) by (eapply dist_remove; eauto).
    assert (LJ2 : is_link I st2 j s t).
    { apply (link_frame _ _ _ _ _ _ _ F2 JI). apply M1. exists s, t. split; auto.
      destruct (N.eqb_spec j i); [contradiction|]. unfold redirect.
      destruct (N.eqb_spec s i); [contradiction|]. destruct (N.eqb_spec t i); [contradiction|]. auto. }
    destruct (gs_update_with cf I G GS st2 j s t K2 (ex_intro _ _ (ex_intro _ _ LJ2)) (distinct_separable _ _ _ D2)) as (st3 & b & K3 & L3 & F3 & E3).
    exists st3. split; auto. split; [unfold no_link; rewrite F3 by auto; exact N2|]. split.
    + intros k s' t' KI. rewrite <- M1, <- (link_frame _ _ _ _ _ _ _ F2 KI). destruct (N.eq_dec k j) as [->|KJ].
      * split; intros A; [destruct (link_fun _ _ _ _ _ _ _ L3 A) as [<- <-]; exact LJ2
                         |destruct (link_fun _ _ _ _ _ _ _ LJ2 A) as [<- <-]; exact L3].
      * now apply link_frame with (i := j).
    + intros H h x. cbn [cascade_unique_resolver li_update]. rewrite Q1, Q2, Q3. cbn [obind].
      destruct (gs_search cf I G GS st s t K S0 SA TA) as [(_ & _ & E)|(k & E & _ & LK)]; [destruct (E j LJ)|].
      assert (k = j) as -> by (apply (D k j s t LK LJ); congruence). rewrite E. cbn [obind]. unfold then_ok.
      destruct (E1 H unit (uw_of h) x) as (x1 & ->). cbn [obind].
      destruct (E2 H h x1) as (o & ->). cbn [obind]. rewrite E3. eauto.
  - intros NH L SEP. destruct (gs_update_with cf I G GS st i s t K L SEP) as (st' & b & K' & L' & F & C).
    exists st', b. split; auto. split; auto. intros H h x. cbn [cascade_unique_resolver li_update]. rewrite Q1, Q2, Q3. cbn [obind].
    destruct (gs_search cf I G GS st s t K S0 SA TA) as [(E & _)|(k & _ & _ & E)]; [|destruct (NH k E)].
    rewrite E. cbn [obind]. apply C.
  - intros N H h x. cbn [cascade_unique_resolver li_update]. rewrite Q1, Q2, Q3. cbn [obind].
    destruct (gs_search cf I G GS st s t K S0 SA TA) as [(E & _)|(k & E & _)]; rewrite E; cbn [obind].
    + now apply (gs_update_with_none cf I G GS).
    + unfold then_ok, d_rebase_with, d_try_get_link. unfold no_link in N. rewrite N. reflexivity.
Qed.
Lemma L_C41_nonvacuous : exists st st',
  good_store ex_cf ex_U (fun st => exists d, u_hist ex_cf ref_tree_ops ref_list_ops st d) /\
  (exists d, u_hist ex_cf ref_tree_ops ref_list_ops st d) /\ distinct_pairs ex_U st /\
  is_link ex_U st 2 1 2 /\ is_link ex_U st 3 2 1 /\ is_link ex_U st 4 3 4 /\
  (forall x, x <> 3 -> ~ is_link ex_U st x 3 3) /\
  (forall k k' s t, moved ex_U st 3 2 k s t -> moved ex_U st 3 2 k' s t -> (s, t) <> (0, 0) -> k = k') /\
  li_update (cascade_unique_resolver ex_cf ex_U) unit cont [3] [3; 1; 2] st tt = Val (st', tt, Ok Continue) /\
  no_link ex_U st' 3 /\ is_link ex_U st' 2 1 2 /\ is_link ex_U st' 4 2 4.
Proof.
  destruct ex4d_reach as (d & HH & DP).
  exists (ex_st ex4d), (out_st3 (ex_st ex4d) (li_update (cascade_unique_resolver ex_cf ex_U) unit cont [3] [3; 1; 2] (ex_st ex4d) tt)).
  split; [exact ex_good|]. split; [eauto|]. split; [exact DP|]. split; [vmr|]. split; [vmr|]. split; [vmr|].
  split; [nolink ex4d|]. split.
  { assert (MV : forall k s t, moved ex_U (ex_st ex4d) 3 2 k s t -> In (k, (s, t)) [(1, (1, 1)); (2, (1, 2)); (3, (2, 1)); (4, (2, 4))]).
    { intros k s t (s0 & t0 & L & E). apply (ex_links ex4d) in L; [|vmr|vmr].
      replace (alinks (arun a_empty ex4d)) with [mkLink 1 1 1; mkLink 2 1 2; mkLink 3 2 1; mkLink 4 3 4] in L by vmr.
      cbn [In] in L. destruct L as [L|[L|[L|[L|[]]]]]; injection L as <- <- <-; cbn in E; destruct E as [-> ->]; cbn; auto. }
    intros k k' s t A B _. apply MV in A, B. cbn [In] in A, B. intuition congruence. }
  split; [vmc|]. split; [vmr|]. split; vmr.
Qed.
(** Updating a link to its own pair deletes it, and if j itself refers to i, its reference is
    restored after i was deleted. *)
Lemma L_C41_cascade_unique_refuted :
  (exists st d st', u_hist ex_cf ref_tree_ops ref_list_ops st d /\ distinct_pairs ex_U st /\ is_link ex_U st 2 1 2 /\
     li_update (cascade_unique_resolver ex_cf ex_U) unit cont [2] [2; 1; 2] st tt = Val (st', tt, Err (NotExists 2)) /\
     no_link ex_U st' 2) /\
  (exists st d st', u_hist ex_cf ref_tree_ops ref_list_ops st d /\ distinct_pairs ex_U st /\
     is_link ex_U st 2 1 2 /\ is_link ex_U st 3 2 1 /\
     li_update (cascade_unique_resolver ex_cf ex_U) unit cont [2] [2; 2; 1] st tt = Val (st', tt, Ok Continue) /\
     is_link ex_U st' 3 2 1 /\ no_link ex_U st' 2).
Proof.
  split.
  - destruct ex3_reach as (d & HH & DP & L1 & L2 & L3).
    exists (ex_st ex3), d, (out_st3 (ex_st ex3) (li_update (cascade_unique_resolver ex_cf ex_U) unit cont [2] [2; 1; 2] (ex_st ex3) tt)).
    split; [exact HH|]. split; [exact DP|]. split; [exact L2|]. split; [vmc|vmr].
  - destruct ex3_reach as (d & HH & DP & L1 & L2 & L3).
    exists (ex_st ex3), d, (out_st3 (ex_st ex3) (li_update (cascade_unique_resolver ex_cf ex_U) unit cont [2] [2; 2; 1] (ex_st ex3) tt)).
    split; [exact HH|]. split; [exact DP|]. split; [exact L2|]. split; [exact L3|]. split; [vmc|]. split; vmr.
Qed.
