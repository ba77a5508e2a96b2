(** Stores with the same links, holes and last index answer all later calls alike. *)
From Coq Require Import NArith List Bool Lia Permutation.
From Verif Require Import Base Trees Lists TreeImpl Spec Iface Doublets DoubletsOK Obs Hist Claims
  UnitModel UnitInv UnitOps UnitLinks UnitHist SplitModel SplitInv SplitReads SplitOps SplitWrites SplitLinks SplitHist SplitClaims.
Import ListNotations.
Open Scope N_scope.

(** ** Statements *)
(** Calls of a client, and what it is told. *)
Inductive op := OCreate | OUpdate (i s t : N) | ODelete (i : N) | OGet (i : N) | OCount (q : list N) | OEach (q : list N).
Inductive answer := ACall (r : result N) | AGot (o : option link) | ACounted (n : N) | AVisited (l : list link).
Definition gave_up (a : answer) : bool := match a with ACall (Err AllocFailed) => true | _ => false end.

Section Answers.
  Context {S : Type}.
  Variable I : LinksI S.
  Definition step (o : op) (st : S) : out (S * answer) :=
    match o with
    | OCreate => let* (st', r) := d_create I st in Val (st', ACall r)
    | OUpdate i s t => let* (st', r) := d_update I i s t st in Val (st', ACall r)
    | ODelete i => let* (st', r) := d_delete I i st in Val (st', ACall r)
    | OGet i => let* g := li_get I st i in Val (st, AGot g)
    | OCount q => let* n := d_count_by I st q in Val (st, ACounted n)
    | OEach q => let* l := d_each_iter I st q in Val (st, AVisited l)
    end.
  (** A client that keeps to a discipline, on this store. *)
  Variable okC : S -> S -> Prop.
  Variable okU : S -> N -> N -> N -> Prop.
  Variable okD : S -> N -> Prop.
  Variable okQ : S -> list N -> Prop.
  Definition may (o : op) (st : S) : Prop :=
    match o with
    | OCreate => forall st' r, d_create I st = Val (st', r) -> okC st st'
    | OUpdate i s t => okU st i s t
    | ODelete i => okD st i
    | OGet _ => True
    | OCount q | OEach q => okQ st q
    end.
  Fixpoint disciplined (l : list op) (st : S) : Prop :=
    match l with
    | [] => True
    | o :: l' => may o st /\ forall st' a, step o st = Val (st', a) -> disciplined l' st'
    end.
End Answers.

(** The same calls on two stores, until an allocation fails on one of them. *)
Fixpoint both {S1 S2} (I1 : LinksI S1) (I2 : LinksI S2) (l : list op) (st1 : S1) (st2 : S2) : out (list (answer * answer)) :=
  match l with
  | [] => Val []
  | o :: l' =>
      let* (st1', a) := step I1 o st1 in
      let* (st2', b) := step I2 o st2 in
      if gave_up a || gave_up b then Val [(a, b)]
      else let* A := both I1 I2 l' st1' st2' in Val ((a, b) :: A)
  end.
(** The same answer, visited links in any order. *)
Definition same_answer (a b : answer) : Prop :=
  match a, b with AVisited l, AVisited k => Permutation l k | _, _ => a = b end.

Definition same_future {S1 S2} (I1 : LinksI S1) okC okU okD okQ (st1 : S1) (I2 : LinksI S2) (st2 : S2) : Prop :=
  forall l, disciplined I1 okC okU okD okQ l st1 ->
    exists A, both I1 I2 l st1 st2 = Val A /\
      forall a b, In (a, b) A -> same_answer a b \/ gave_up a = true \/ gave_up b = true.

(** The clients of the two stores: the disciplines of Obs.v and SplitHist.v, and queries the
    store answers (for a pair held by one link at most). *)
Definition unit_query (cf : cfg) {S} (I : LinksI S) (st : S) (q : list N) : Prop :=
  (length q <= 3)%nat /\ (pair_query (c_any cf) q -> one_match (c_any cf) I st q).
Definition split_query (cf : cfg) {S} (I : LinksI S) (st : S) (q : list N) : Prop :=
  unit_query cf I st q /\ plain_query (c_any cf) q /\ countable (c_any cf) I st q.
Definition unit_future cf tops lops (st : ust) {S2} (I2 : LinksI S2) (st2 : S2) : Prop :=
  let U := unit_links cf tops lops in
  same_future U (fun _ _ => True) (fun st i _ _ => u_okc cf tops lops st i) (u_okc cf tops lops) (unit_query cf U) st I2 st2.
Definition split_future cf tops lops (st : sst) {S2} (I2 : LinksI S2) (st2 : S2) : Prop :=
  let SL := split_links cf tops lops in
  same_future SL (s_okc SL) (s_oku SL) (s_okd SL) (split_query cf SL) st I2 st2.

(** Two states of one store that no client can tell apart from now on. *)
Definition unit_same cf tops lops (st st' : ust) : Prop :=
  let U := unit_links cf tops lops in unit_future cf tops lops st U st' /\ unit_future cf tops lops st' U st.
Definition split_same cf tops lops (st st' : sst) : Prop :=
  let SL := split_links cf tops lops in split_future cf tops lops st SL st' /\ split_future cf tops lops st' SL st.

(** ** Proofs *)
Definition aeq (a b : astate) : Prop := a_top a = a_top b /\ a_free a = a_free b /\ forall i, a_map a i = a_map b i.
Lemma aeq_refl a : aeq a a. Proof. unfold aeq; auto. Qed.
Lemma aeq_sym a b : aeq a b -> aeq b a. Proof. unfold aeq. intros (A & B & C). auto. Qed.
Lemma aeq_trans a b c : aeq a b -> aeq b c -> aeq a c.
Proof. unfold aeq. intros (A & B & C) (A' & B' & C'). split; [congruence|]. split; [congruence|]. intros i. now rewrite C. Qed.
Lemma upd_ext {V} (f g : N -> V) i v : (forall j, f j = g j) -> forall j, upd f i v j = upd g i v j.
Proof. intros E j. unfold upd. destruct (j =? i); auto. Qed.
Lemma aeq_update a b i s t : aeq a b -> aeq (a_update a i s t) (a_update b i s t).
Proof. intros (A & B & C). unfold aeq, a_update; cbn. split; auto. split; auto. now apply upd_ext. Qed.
Lemma aeq_create a b : aeq a b -> aeq (a_create a) (a_create b).
Proof.
  intros (A & B & C). unfold aeq, a_create. rewrite <- B. destruct (a_free a); cbn; (split; [congruence|split; [auto|]]); rewrite <- ?A; now apply upd_ext.
Qed.
Lemma top_of_ext m m' n : (forall i, m i = m' i) -> top_of m n = top_of m' n.
Proof. intros E. induction n as [|n IH]; [reflexivity|]. cbn [top_of]. rewrite E, IH. reflexivity. Qed.
Lemma aeq_delete a b i : aeq a b -> aeq (a_delete a i) (a_delete b i).
Proof.
  intros (A & B & C). unfold aeq, a_delete. rewrite <- A. destruct (i <? a_top a); cbn.
  - split; auto. split; [congruence|]. now apply upd_ext.
  - rewrite (top_of_ext _ _ _ (upd_ext _ _ i None C)). rewrite B. split; auto. split; auto. now apply upd_ext.
Qed.
Lemma aeq_links a b : aeq a b -> alinks a = alinks b.
Proof.
  intros (A & _ & C). unfold alinks. rewrite A. apply flat_map_ext. intros i. now rewrite C.
Qed.
Lemma aeq_visits any q a b : aeq a b -> avisits any q a = avisits any q b.
Proof. intros E. unfold avisits. now rewrite (aeq_links _ _ E). Qed.
Lemma aeq_next a b : aeq a b -> a_next a = a_next b.
Proof. intros (A & B & _). unfold a_next. now rewrite A, B. Qed.
Lemma aeq_full cf a b : aeq a b -> a_full cf a <-> a_full cf b.
Proof. intros (A & B & _). unfold a_full. now rewrite A, B. Qed.
Lemma aeq_detach a b i : aeq a b -> detachable a i -> detachable b i.
Proof.
  intros (_ & _ & C) [D|D]; [left|right]; [now rewrite <- C|]. intros j p. rewrite <- !C. apply D.
Qed.

(** create on a related store *)
Definition create_cases (cf : cfg) {S} (I : LinksI S) (R : S -> astate -> Prop) (cr : astate -> Prop) : Prop :=
  forall st a, R st a ->
    (a_full cf a /\ d_create I st = Val (st, Err (LimitReached (c_iend cf)))) \/
    (~ a_full cf a /\ exists st', d_create I st = Val (st', Err AllocFailed)) \/
    (~ a_full cf a /\ exists st', (cr a -> R st' (a_create a)) /\ d_create I st = Val (st', Ok (a_next a))).

Section Generic.
  Variable cf : cfg.
  Context {S1 S2 : Type}.
  Variables (sp1 sp2 : store_spec) (I1 : LinksI S1) (I2 : LinksI S2) (R1 : S1 -> astate -> Prop) (R2 : S2 -> astate -> Prop).
  Hypothesis OK1 : links_ok cf sp1 I1 R1.
  Hypothesis OK2 : links_ok cf sp2 I2 R2.
  Variables (cr1 cr2 : astate -> Prop).
  Hypothesis CC1 : create_cases cf I1 R1 cr1.
  Hypothesis CC2 : create_cases cf I2 R2 cr2.
  Variable okC : S1 -> S1 -> Prop.
  Variable okU : S1 -> N -> N -> N -> Prop.
  Variable okD : S1 -> N -> Prop.
  Variable okQ : S1 -> list N -> Prop.
  Hypothesis HC : forall st a b st', R1 st a -> aeq a b -> d_create I1 st = Val (st', Ok (a_next a)) -> okC st st' -> cr1 a /\ cr2 b.
  Hypothesis HU : forall st a b i s t, R1 st a -> aeq a b -> a_map a i <> None -> okU st i s t -> sp_update sp1 a i s t /\ sp_update sp2 b i s t.
  Hypothesis HD : forall st a b i, R1 st a -> aeq a b -> a_map a i <> None -> okD st i -> sp_delete sp1 a i /\ sp_delete sp2 b i.
  Hypothesis HQ : forall st a st2 b q, R1 st a -> R2 st2 b -> aeq a b -> okQ st q -> sp_query sp1 a q /\ sp_query sp2 b q /\
    (pair_query (c_any cf) q -> one_match (c_any cf) I1 st q).

  Lemma one_visits any st a q L1 L2 : R1 st a -> is_search any q = true -> one_match any I1 st q ->
    ((L1 = [] /\ avisits any q a = []) \/ exists l, L1 = [l] /\ In l (avisits any q a)) ->
    ((L2 = [] /\ avisits any q a = []) \/ exists l, L2 = [l] /\ In l (avisits any q a)) -> L1 = L2.
  Proof.
    intros K SE OM V1 V2. pose proof (lo_wf _ _ _ _ OK1 _ _ K) as W.
    assert (IN : forall l, In l (avisits any q a) -> li_get I1 st (l_index l) = Val (Some l) /\ query_match any q l).
    { intros l IN. destruct q as [|i [|s [|t [|? ?]]]]; try discriminate. cbn [is_search] in SE.
      apply andb_true_iff in SE as [SE S3]. apply andb_true_iff in SE as [S1' S2'].
      apply negb_true_iff in S2', S3. cbn [avisits] in IN. rewrite S1', S2', S3 in IN. cbn [andb] in IN.
      destruct (s =? 0); [destruct IN|]. apply filter_In in IN as [IN M]. apply andb_true_iff in M as [M1 M2].
      apply N.eqb_eq in S1', M1, M2. split.
      - apply (in_alinks' _ _ W) in IN. rewrite (lo_get _ _ _ _ OK1 _ _ _ K), IN. destruct l; reflexivity.
      - cbn. unfold part_match. auto. }
    destruct V1 as [[-> E]|(l & -> & X)], V2 as [[-> E']|(k & -> & Y)]; auto.
    - rewrite E in Y. destruct Y.
    - rewrite E' in X. destruct X.
    - destruct (IN _ X), (IN _ Y). f_equal. now apply OM.
  Qed.
  Lemma search_pair any q : is_search any q = true -> pair_query any q.
  Proof.
    destruct q as [|i [|s [|t [|? ?]]]]; try discriminate. cbn. intros E.
    apply andb_true_iff in E as [E E3]. apply andb_true_iff in E as [E1 E2]. apply negb_true_iff in E2, E3.
    apply N.eqb_eq in E1. apply N.eqb_neq in E2, E3. auto.
  Qed.

  (** One call: the answers agree or one is a failed allocation; otherwise both stores stay
      related. *)
  Lemma step_same o st1 st2 a b : R1 st1 a -> R2 st2 b -> aeq a b -> may I1 okC okU okD okQ o st1 ->
    exists st1' st2' x y, step I1 o st1 = Val (st1', x) /\ step I2 o st2 = Val (st2', y) /\
      ((gave_up x = true \/ gave_up y = true) \/
       (gave_up x = false /\ gave_up y = false /\ same_answer x y /\ exists a' b', R1 st1' a' /\ R2 st2' b' /\ aeq a' b')).
  Proof.
    intros K1 K2 E M. destruct o as [|i s t|i|i|q|q]; cbn [step may] in *.
    - destruct (CC1 _ _ K1) as [[F D]|[(NF & st1' & D)|(NF & st1' & KC & D)]];
        destruct (CC2 _ _ K2) as [[F' D']|[(NF' & st2' & D')|(NF' & st2' & KC' & D')]];
        try (rewrite D, D'; cbn [obind]; eexists _, _, _, _; split; [reflexivity|]; split; [reflexivity|]; auto; fail).
      + rewrite D, D'. cbn [obind]. eexists _, _, _, _. split; [reflexivity|]. split; [reflexivity|].
        right. split; auto. split; auto. split; [reflexivity|]. eauto.
      + apply (aeq_full cf _ _ E) in F. contradiction.
      + apply (aeq_full cf _ _ E) in F'. contradiction.
      + destruct (HC _ _ _ _ K1 E D (M _ _ D)) as [X Y]. rewrite D, D'. cbn [obind].
        eexists _, _, _, _. split; [reflexivity|]. split; [reflexivity|].
        right. split; auto. split; auto. split; [cbn; now rewrite (aeq_next _ _ E)|].
        exists (a_create a), (a_create b). split; auto. split; auto. now apply aeq_create.
    - destruct (a_map a i) as [p|] eqn:EM.
      + assert (MN : a_map a i <> None) by congruence. destruct (HU _ _ _ _ _ _ K1 E MN M) as [X Y].
        assert (MN' : a_map b i <> None) by (destruct E as (_ & _ & C); rewrite <- C; auto).
        destruct (d_update_with_ok cf _ I1 _ OK1 _ _ _ _ _ K1 MN X) as (st1' & ? & K1' & _ & ->).
        destruct (d_update_with_ok cf _ I2 _ OK2 _ _ _ _ _ K2 MN' Y) as (st2' & ? & K2' & _ & ->).
        cbn [obind]. eexists _, _, _, _. split; [reflexivity|]. split; [reflexivity|]. right. split; auto. split; auto. split; [reflexivity|].
        eexists _, _. split; [exact K1'|]. split; [exact K2'|]. now apply aeq_update.
      + assert (EM' : a_map b i = None) by (destruct E as (_ & _ & C); rewrite <- C; auto).
        destruct (d_update_none cf _ I1 _ OK1 _ _ _ s t K1 EM) as [_ ->].
        destruct (d_update_none cf _ I2 _ OK2 _ _ _ s t K2 EM') as [_ ->].
        cbn [obind]. eexists _, _, _, _. split; [reflexivity|]. split; [reflexivity|]. right. split; auto. split; auto. split; [reflexivity|]. eauto.
    - destruct (a_map a i) as [[s t]|] eqn:EM.
      + assert (MN : a_map a i <> None) by congruence. destruct (HD _ _ _ _ K1 E MN M) as [X Y].
        assert (EM' : a_map b i = Some (s, t)) by (destruct E as (_ & _ & C); rewrite <- C; auto).
        destruct (d_delete_with_ok cf _ I1 _ OK1 _ _ _ _ _ K1 EM X) as (st1' & K1' & _ & ->).
        destruct (d_delete_with_ok cf _ I2 _ OK2 _ _ _ _ _ K2 EM' Y) as (st2' & K2' & _ & ->).
        cbn [obind]. eexists _, _, _, _. split; [reflexivity|]. split; [reflexivity|]. right. split; auto. split; auto. split; [reflexivity|].
        eexists _, _. split; [exact K1'|]. split; [exact K2'|]. now apply aeq_delete.
      + assert (EM' : a_map b i = None) by (destruct E as (_ & _ & C); rewrite <- C; auto).
        destruct (d_delete_none cf _ I1 _ OK1 _ _ _ K1 EM) as [_ ->].
        destruct (d_delete_none cf _ I2 _ OK2 _ _ _ K2 EM') as [_ ->].
        cbn [obind]. eexists _, _, _, _. split; [reflexivity|]. split; [reflexivity|]. right. split; auto. split; auto. split; [reflexivity|]. eauto.
    - rewrite (lo_get _ _ _ _ OK1 _ _ _ K1), (lo_get _ _ _ _ OK2 _ _ _ K2). cbn [obind].
      eexists _, _, _, _. split; [reflexivity|]. split; [reflexivity|]. right. split; auto. split; auto.
      split; [|eauto]. cbn. destruct E as (_ & _ & C). now rewrite C.
    - destruct (HQ _ _ _ _ _ K1 K2 E M) as (X & Y & _).
      destruct (visits_ex cf sp1 I1 R1 OK1 _ _ _ K1 X) as (L1 & V1 & O1).
      destruct (visits_ex cf sp2 I2 R2 OK2 _ _ _ K2 Y) as (L2 & V2 & O2).
      unfold d_count_by. rewrite (proj2 V1), (proj2 V2). cbn [obind].
      eexists _, _, _, _. split; [reflexivity|]. split; [reflexivity|]. right. split; auto. split; auto.
      split; [|eauto]. cbn. f_equal. rewrite (visits_count _ _ _ _ O1), (visits_count _ _ _ _ O2).
      unfold acount. now rewrite (aeq_visits _ _ _ _ E).
    - destruct (HQ _ _ _ _ _ K1 K2 E M) as (X & Y & OM).
      destruct (visits_ex cf sp1 I1 R1 OK1 _ _ _ K1 X) as (L1 & V1 & O1).
      destruct (visits_ex cf sp2 I2 R2 OK2 _ _ _ K2 Y) as (L2 & V2 & O2).
      rewrite (d_each_iter_ok _ _ _ _ V1), (d_each_iter_ok _ _ _ _ V2). cbn [obind].
      eexists _, _, _, _. split; [reflexivity|]. split; [reflexivity|]. right. split; auto. split; auto.
      split; [|eauto]. cbn. unfold visits_ok in O1, O2. rewrite <- (aeq_visits _ _ _ _ E) in O2.
      destruct (is_search (c_any cf) q) eqn:SE.
      + rewrite (one_visits (c_any cf) st1 a q L1 L2); auto. apply OM. now apply search_pair.
      + destruct O1 as [P1 _], O2 as [P2 _]. now rewrite P1, P2.
  Qed.

  Theorem future_same st1 st2 a b : R1 st1 a -> R2 st2 b -> aeq a b -> same_future I1 okC okU okD okQ st1 I2 st2.
  Proof.
    intros K1 K2 E l. revert st1 st2 a b K1 K2 E. induction l as [|o l IH]; intros st1 st2 a b K1 K2 E D.
    - exists []. split; auto.
    - destruct D as [M D]. destruct (step_same o st1 st2 a b K1 K2 E M) as (st1' & st2' & x & y & E1 & E2 & C).
      cbn [both]. rewrite E1, E2. cbn [obind]. specialize (D _ _ E1).
      destruct C as [C|(G1 & G2 & SA & a' & b' & K1' & K2' & E')].
      + assert (gave_up x || gave_up y = true) as -> by (apply orb_true_iff; auto). eexists. split; [reflexivity|].
        intros x' y' [[= <- <-]|[]]. auto.
      + rewrite G1, G2. destruct (IH _ _ _ _ K1' K2' E' D) as (A & -> & AL). cbn [obind orb].
        eexists. split; [reflexivity|]. intros x' y' [[= <- <-]|IN]; auto.
  Qed.
End Generic.

(** The three pairings of stores. *)
Lemma u_cases cf tops lops : unit_env cf tops lops -> cfg_room cf ->
  create_cases cf (unit_links cf tops lops) (uinv cf) (fun _ => True).
Proof.
  intros ENV RM st a K. pose proof (e_spc cf tops lops ENV st a RM K) as SP.
  destruct (twin_u_create cf tops lops ENV st a K) as [(NF & EF & NR & _)|[X|[(NF & X)|(NF & st' & K' & E)]]].
  - exfalso. destruct SP as [F|[F|F]]; tauto.
  - auto.
  - right; left. auto.
  - right; right. split; auto. exists st'. auto.
Qed.
Lemma s_cases cf tops lops : unit_env cf tops lops -> cfg_room cf ->
  create_cases cf (split_links cf tops lops) (srep cf) (fun a => unreferenced a (a_next a)).
Proof.
  intros ENV RM st a K. pose proof ENV as (CF & _ & LOK). pose proof (f_ok _ _ _ ENV) as OK.
  pose proof (lo_iend _ _ _ _ OK _ _ K) as LE. pose proof (room_step _ RM).
  destruct (s_create_ok cf CF tops lops LOK st a [] K) as [(c & _ & (G1 & G2 & _) & NR & _)|[[F C]|[(NF & _ & st' & _ & C)|(NF & st' & K' & O & C)]]].
  - exfalso. apply NR. unfold room. lia.
  - left. split; auto. apply (d_create_fail (split_links cf tops lops) st [] st _ C).
  - right; left. split; auto. exists st'. apply (d_create_fail (split_links cf tops lops) st [] _ _ C).
  - right; right. split; auto. exists st'. split; [|apply (d_create_once (split_links cf tops lops) st [] _ _ _ _ C)].
    intros UR. split; auto. destruct K as [(_ & W & V) _]. now apply sinv_create.
Qed.

Lemma u_okc_det cf tops lops st a i : unit_env cf tops lops -> uinv cf st a -> a_map a i <> None ->
  u_okc cf tops lops st i -> detachable a i.
Proof.
  intros ENV K M [C|C].
  - apply (ob_none cf _ _ _ (e_ok _ _ _ ENV) _ _ _ K) in C. contradiction.
  - now apply (ob_sep cf _ _ _ (e_ok _ _ _ ENV) _ _ _ K) in C.
Qed.

Lemma future_uu cf tops lops tops2 lops2 st1 st2 a b : unit_env cf tops lops -> unit_env cf tops2 lops2 -> cfg_room cf ->
  uinv cf st1 a -> uinv cf st2 b -> aeq a b -> unit_future cf tops lops st1 (unit_links cf tops2 lops2) st2.
Proof.
  intros ENV ENV2 RM K1 K2 E. unfold unit_future.
  apply (future_same cf (unit_spec cf) (unit_spec cf) _ _ (uinv cf) (uinv cf) (e_ok _ _ _ ENV) (e_ok _ _ _ ENV2)
    (fun _ => True) (fun _ => True) (u_cases _ _ _ ENV RM) (u_cases _ _ _ ENV2 RM)) with (a := a) (b := b); auto.
  - intros st a' b' i s t K E' M C. pose proof (u_okc_det _ _ _ _ _ _ ENV K M C) as D. split; [exact D|]. eapply aeq_detach; eauto.
  - intros st a' b' i K E' M C. pose proof (u_okc_det _ _ _ _ _ _ ENV K M C) as D. split; [exact D|]. eapply aeq_detach; eauto.
  - intros st a' st' b' q K K' E' (L & OM). pose proof (room_dbl _ RM).
    split; [eapply e_spq; eauto|]. split; [eapply (e_spq _ _ _ ENV2); eauto|exact OM].
Qed.

Lemma aeq_unref a b i : aeq a b -> unreferenced a i -> unreferenced b i.
Proof. intros (_ & _ & C) U x s t. rewrite <- C. apply U. Qed.
Lemma aeq_okd a b i : aeq a b -> split_delete_ok a i -> split_delete_ok b i.
Proof.
  intros E [D U]. split; [eapply aeq_detach; eauto|]. intros x s t M NE X. eapply aeq_detach; eauto. eapply U; eauto.
  destruct E as (_ & _ & C). now rewrite C.
Qed.
Lemma aeq_oku a b i s t : aeq a b -> split_update_ok a i s t -> split_update_ok b i s t.
Proof.
  intros E (D & V & X). split; [eapply aeq_detach; eauto|]. split; auto. intros Y. destruct (X Y) as (ot & M).
  exists ot. destruct E as (_ & _ & C). now rewrite <- C.
Qed.
Lemma aeq_each_q cf a b q : aeq a b -> each_q cf a q -> each_q cf b q.
Proof. intros (_ & B & _). unfold each_q. rewrite B. auto. Qed.
Lemma aeq_count_q cf a b q : aeq a b -> count_q cf a q -> count_q cf b q.
Proof.
  intros E. pose proof E as (_ & B & C).
  assert (X : extsrc a -> extsrc b).
  { unfold extsrc. intros (x & s & t & M & S0 & N). exists x, s, t. rewrite <- !C. auto. }
  destruct q as [|i [|s [|t [|? ?]]]]; cbn [count_q]; auto; rewrite <- ?B, <- ?C; destruct E as (T & _ & _); rewrite <- ?T.
  - intros [Q|Q]; [auto|right]. destruct (i =? c_any cf); [|exact Q]. tauto.
  - intros Q IA. destruct (Q IA) as (Q1 & Q2 & Q3). split; [exact Q1|]. split; [exact Q2|]. intros SA MN.
    destruct (Q3 SA MN) as (Q4 & Q5). split; [tauto|]. destruct Q5 as [Q5|Q5]; [auto|right]. intros x s' t'. rewrite <- C. apply Q5.
Qed.
Lemma sp_split_query cf tops lops st a b q : unit_env cf tops lops -> cfg_room cf -> srep cf st a -> aeq a b ->
  split_query cf (split_links cf tops lops) st q ->
  sp_query (split_spec cf) a q /\ sp_query (split_spec cf) b q /\
  (pair_query (c_any cf) q -> one_match (c_any cf) (split_links cf tops lops) st q).
Proof.
  intros ENV RM K E ((L & OM) & PQ & CQ).
  assert (Q : sp_query (split_spec cf) a q).
  { split; [now apply plain_each|]. eapply countable_count; eauto. apply RM. }
  split; auto. split; auto. destruct Q as [Q1 Q2]. split; [eapply aeq_each_q; eauto|eapply aeq_count_q; eauto].
Qed.
Lemma s_okc_unref cf tops lops st a st' : unit_env cf tops lops -> srep cf st a ->
  d_create (split_links cf tops lops) st = Val (st', Ok (a_next a)) -> s_okc (split_links cf tops lops) st st' ->
  unreferenced a (a_next a).
Proof.
  intros ENV K E OC. pose proof ENV as (CF & _ & LOK).
  destruct (s_create_ok cf CF tops lops LOK st a [] K) as
    [(_ & _ & _ & _ & P)|[[F C]|[(_ & _ & st2 & _ & C)|(NF & st2 & K' & O & C)]]].
  - unfold d_create, d_create_by, d_create_by_with in E. cbn [li_create split_links] in E. rewrite P in E. discriminate.
  - pose proof (d_create_fail (split_links cf tops lops) st [] _ _ C) as X. unfold d_create in E. congruence.
  - pose proof (d_create_fail (split_links cf tops lops) st [] _ _ C) as X. unfold d_create in E. congruence.
  - pose proof (d_create_once (split_links cf tops lops) st [] _ _ _ _ C) as X. unfold d_create in E. assert (st2 = st') as -> by congruence.
    destruct (creates_smem cf tops lops ENV st a st' K NF K') as (_ & N3 & N4 & _).
    apply (ob_unref _ _ _ ENV _ _ _ K). apply OC; auto. now exists 0, 0.
Qed.

Lemma future_ss cf tops lops tops2 lops2 st1 st2 a b : unit_env cf tops lops -> unit_env cf tops2 lops2 -> cfg_room cf ->
  srep cf st1 a -> srep cf st2 b -> aeq a b -> split_future cf tops lops st1 (split_links cf tops2 lops2) st2.
Proof.
  intros ENV ENV2 RM K1 K2 E. unfold split_future.
  apply (future_same cf (split_spec cf) (split_spec cf) _ _ (srep cf) (srep cf) (f_ok _ _ _ ENV) (f_ok _ _ _ ENV2)
    _ _ (s_cases _ _ _ ENV RM) (s_cases _ _ _ ENV2 RM)) with (a := a) (b := b); auto.
  - intros st a' b' st' K E' D C. pose proof (s_okc_unref _ _ _ _ _ _ ENV K D C) as X. split; auto.
    rewrite <- (aeq_next _ _ E'). eapply aeq_unref; eauto.
  - intros st a' b' i s t K E' M C. apply (ob_oku _ _ _ ENV _ _ _ _ _ K M) in C. split; [exact C|]. eapply aeq_oku; eauto.
  - intros st a' b' i K E' M C. apply (ob_okd _ _ _ ENV _ _ _ K M) in C. split; [exact C|]. eapply aeq_okd; eauto.
  - intros st a' st' b' q K K' E' Q. eapply sp_split_query; eauto.
Qed.
Lemma future_su cf tops lops tops2 lops2 st1 st2 a b : unit_env cf tops lops -> unit_env cf tops2 lops2 -> cfg_room cf ->
  srep cf st1 a -> uinv cf st2 b -> aeq a b -> split_future cf tops lops st1 (unit_links cf tops2 lops2) st2.
Proof.
  intros ENV ENV2 RM K1 K2 E. unfold split_future.
  apply (future_same cf (split_spec cf) (unit_spec cf) _ _ (srep cf) (uinv cf) (f_ok _ _ _ ENV) (e_ok _ _ _ ENV2)
    _ (fun _ => True) (s_cases _ _ _ ENV RM) (u_cases _ _ _ ENV2 RM)) with (a := a) (b := b); auto.
  - intros st a' b' st' K E' D C. split; auto. exact (s_okc_unref _ _ _ _ _ _ ENV K D C).
  - intros st a' b' i s t K E' M C. apply (ob_oku _ _ _ ENV _ _ _ _ _ K M) in C. split; [exact C|].
    eapply aeq_detach; eauto. apply C.
  - intros st a' b' i K E' M C. apply (ob_okd _ _ _ ENV _ _ _ K M) in C. split; [exact C|].
    eapply aeq_detach; eauto. apply C.
  - intros st a' st' b' q K K' E' Q. destruct (sp_split_query _ _ _ _ _ _ _ ENV RM K E' Q) as (X & _ & Z).
    split; auto. split; auto. destruct Q as ((L & _) & _). eapply (e_spq _ _ _ ENV2); eauto. intros _. apply RM.
Qed.

Lemma same_uu cf tops lops st1 st2 a b : unit_env cf tops lops -> cfg_room cf ->
  uinv cf st1 a -> uinv cf st2 b -> aeq a b -> unit_same cf tops lops st1 st2.
Proof. intros ENV RM K1 K2 E. split; eapply future_uu; eauto. now apply aeq_sym. Qed.
Lemma same_ss cf tops lops st1 st2 a b : unit_env cf tops lops -> cfg_room cf ->
  srep cf st1 a -> srep cf st2 b -> aeq a b -> split_same cf tops lops st1 st2.
Proof. intros ENV RM K1 K2 E. split; eapply future_ss; eauto. now apply aeq_sym. Qed.

(** What calls that returned did. *)
Section After.
  Context {S : Type}.
  Variables (cf : cfg) (sp : store_spec) (I : LinksI S) (R : S -> astate -> Prop).
  Hypothesis OK : links_ok cf sp I R.
  Lemma after_update st a i s t st' r : R st a -> a_map a i <> None -> sp_update sp a i s t ->
    d_update I i s t st = Val (st', r) -> R st' (a_update a i s t).
  Proof.
    intros K M P E. destruct (d_update_with_ok cf _ I _ OK _ _ _ _ _ K M P) as (st2 & ? & K' & _ & E'). congruence.
  Qed.
  Lemma after_delete st a i st' r : R st a -> a_map a i <> None -> sp_delete sp a i ->
    d_delete I i st = Val (st', r) -> R st' (a_delete a i).
  Proof.
    intros K M P E. destruct (a_map a i) as [[s t]|] eqn:EM; [|congruence].
    destruct (d_delete_with_ok cf _ I _ OK _ _ _ _ _ K EM P) as (st2 & K' & _ & E'). congruence.
  Qed.
  Variable cr : astate -> Prop.
  Hypothesis CC : create_cases cf I R cr.
  Lemma after_create st a st' i : R st a -> d_create I st = Val (st', Ok i) -> i = a_next a /\ (cr a -> R st' (a_create a)).
  Proof.
    intros K E. destruct (CC _ _ K) as [[_ D]|[(_ & st2 & D)|(_ & st2 & K' & D)]]; try congruence.
    assert (st2 = st') as -> by congruence. split; [congruence|auto].
  Qed.
End After.

Lemma hole_below a x : awf a -> In x (a_free a) -> x < a_top a.
Proof.
  intros W IN. pose proof (wf_free _ W _ IN). destruct (wf_top _ W) as [T|T]; [lia|].
  apply (wf_dom _ W) in T. assert (x <> a_top a) by (intros ->; tauto). lia.
Qed.
Lemma top_of_top m n : m (N.of_nat n) <> None -> top_of m n = N.of_nat n.
Proof. destruct n; [reflexivity|]. cbn [top_of]. destruct (m _); congruence. Qed.
Lemma aeq_create_delete a : awf a -> aeq (a_delete (a_create a) (a_next a)) a.
Proof.
  intros W. unfold a_create, a_next, a_delete. destruct (a_free a) as [|x fl] eqn:EF; cbn [a_top a_free a_map].
  - rewrite N.ltb_irrefl.
    assert (E : forall i, upd (upd (a_map a) (a_top a + 1) (Some (0, 0))) (a_top a + 1) None i = a_map a i).
    { intros i. unfold upd. destruct (N.eqb_spec i (a_top a + 1)) as [->|]; auto. symmetry. apply awf_none; auto. left; lia. }
    assert (T : top_of (a_map a) (N.to_nat (a_top a + 1)) = a_top a).
    { replace (N.to_nat (a_top a + 1)) with (Datatypes.S (N.to_nat (a_top a))) by lia. cbn [top_of].
      replace (N.of_nat (Datatypes.S (N.to_nat (a_top a)))) with (a_top a + 1) by lia.
      rewrite awf_none by (auto; left; lia). destruct (wf_top _ W) as [T|T]; [now rewrite T|].
      rewrite top_of_top; rewrite N2Nat.id; auto. }
    unfold aeq. cbn. rewrite (top_of_ext _ _ _ E), T, EF. auto.
  - assert (X : x < a_top a) by (apply hole_below; auto; rewrite EF; now left).
    destruct (N.ltb_spec x (a_top a)); [|lia]. unfold aeq. cbn. split; auto. split; auto.
    intros i. unfold upd. destruct (N.eqb_spec i x) as [->|]; auto. symmetry. apply awf_none; auto. right. rewrite EF. now left.
Qed.
Lemma aeq_update_back a i s0 t0 s t : a_map a i = Some (s0, t0) -> aeq (a_update (a_update a i s t) i s0 t0) a.
Proof. intros M. unfold aeq, a_update; cbn. split; auto. split; auto. intros j. unfold upd. destruct (N.eqb_spec j i) as [->|]; auto. Qed.
Lemma aeq_recreate a i s t : a_map a i = Some (s, t) -> i < a_top a ->
  a_next (a_delete a i) = i /\ aeq (a_update (a_create (a_delete a i)) i s t) a.
Proof.
  intros M L. unfold a_delete. destruct (N.ltb_spec i (a_top a)); [|lia]. split; [reflexivity|].
  unfold aeq, a_update, a_create; cbn. split; auto. split; auto. intros j. unfold upd. destruct (N.eqb_spec j i) as [->|]; auto.
Qed.
Lemma aeq_commute a i j s t s' t' : i <> j -> aeq (a_update (a_update a i s t) j s' t') (a_update (a_update a j s' t') i s t).
Proof.
  intros NE. unfold aeq, a_update; cbn. split; auto. split; auto. intros k. unfold upd.
  destruct (N.eqb_spec k j), (N.eqb_spec k i); subst; auto. contradiction.
Qed.
Lemma some_ne {A} (o : option A) x : o = Some x -> o <> None. Proof. congruence. Qed.
Lemma new_det a : awf a -> a_map (a_create a) (a_next a) = Some (0, 0).
Proof. intros W. now rewrite a_create_map, upd_same. Qed.
Lemma upd_map a i s t j : a_map (a_update a i s t) j <> None <-> j = i \/ a_map a j <> None.
Proof. cbn. now rewrite upd_none_iff. Qed.

(** * C67 *)
(** A link created and deleted at once leaves no trace. *)
Lemma L_C67_create_delete_unit cf tops lops st d st1 i st2 r :
  let U := unit_links cf tops lops in
  unit_env cf tops lops -> cfg_room cf -> u_hist cf tops lops st d ->
  d_create U st = Val (st1, Ok i) -> d_delete U i st1 = Val (st2, r) -> unit_same cf tops lops st st2.
Proof.
  intros U ENV RM HH E1 E2. destruct (u_hist_inv _ _ _ ENV _ _ HH) as (a & K & _).
  pose proof (lo_wf _ _ _ _ (e_ok _ _ _ ENV) _ _ K) as W.
  destruct (after_create cf _ _ _ (u_cases _ _ _ ENV RM) _ _ _ _ K E1) as [-> K1]. specialize (K1 Logic.I).
  pose proof (new_det a W) as N.
  pose proof (after_delete cf _ _ _ (e_ok _ _ _ ENV) _ _ _ _ _ K1 (some_ne _ _ N) (or_introl N) E2) as K2.
  eapply same_uu; eauto. apply aeq_sym. now apply aeq_create_delete.
Qed.
Lemma L_C67_create_delete_split cf tops lops st d st1 i st2 r :
  let SL := split_links cf tops lops in
  unit_env cf tops lops -> cfg_room cf -> s_hist cf tops lops st d ->
  d_create SL st = Val (st1, Ok i) -> s_okc SL st st1 -> d_delete SL i st1 = Val (st2, r) -> split_same cf tops lops st st2.
Proof.
  intros U ENV RM HH E1 OC E2. destruct (s_hist_inv _ _ _ ENV _ _ HH) as (a & K & _).
  pose proof (lo_wf _ _ _ _ (f_ok _ _ _ ENV) _ _ K) as W.
  destruct (after_create cf _ _ _ (s_cases _ _ _ ENV RM) _ _ _ _ K E1) as [-> K1].
  pose proof (s_okc_unref _ _ _ _ _ _ ENV K E1 OC) as UR. specialize (K1 UR).
  pose proof (new_det a W) as N.
  assert (DO : split_delete_ok (a_create a) (a_next a)).
  { split; [now left|]. intros x s t M NE X. rewrite a_create_map, upd_other in M by auto. apply UR in M. destruct M, X; contradiction. }
  pose proof (after_delete cf _ _ _ (f_ok _ _ _ ENV) _ _ _ _ _ K1 (some_ne _ _ N) DO E2) as K2.
  eapply same_ss; eauto. apply aeq_sym. now apply aeq_create_delete.
Qed.

(** An update and the update back leave no trace. *)
Lemma L_C67_update_back_unit cf tops lops st d i s0 t0 s t st1 r1 st2 r2 :
  let U := unit_links cf tops lops in
  unit_env cf tops lops -> cfg_room cf -> u_hist cf tops lops st d -> is_link U st i s0 t0 ->
  separable U st i -> d_update U i s t st = Val (st1, r1) ->
  separable U st1 i -> d_update U i s0 t0 st1 = Val (st2, r2) -> unit_same cf tops lops st st2.
Proof.
  intros U ENV RM HH L D1 E1 D2 E2. destruct (u_hist_inv _ _ _ ENV _ _ HH) as (a & K & _). pose proof (e_ok _ _ _ ENV) as OK.
  apply (ob_link cf _ _ _ OK _ _ _ _ _ K) in L. apply (ob_sep cf _ _ _ OK _ _ _ K) in D1.
  pose proof (after_update cf _ _ _ OK _ _ _ _ _ _ _ K (some_ne _ _ L) D1 E1) as K1.
  apply (ob_sep cf _ _ _ OK _ _ _ K1) in D2.
  pose proof (after_update cf _ _ _ OK _ _ _ _ _ _ _ K1 (proj2 (upd_map _ _ _ _ _) (or_introl eq_refl)) D2 E2) as K2.
  eapply same_uu; eauto. apply aeq_sym. now apply aeq_update_back.
Qed.
Lemma L_C67_update_back_split cf tops lops st d i s0 t0 s t st1 r1 st2 r2 :
  let SL := split_links cf tops lops in
  unit_env cf tops lops -> cfg_room cf -> s_hist cf tops lops st d -> is_link SL st i s0 t0 ->
  s_oku SL st i s t -> d_update SL i s t st = Val (st1, r1) ->
  s_oku SL st1 i s0 t0 -> d_update SL i s0 t0 st1 = Val (st2, r2) -> split_same cf tops lops st st2.
Proof.
  intros U ENV RM HH L D1 E1 D2 E2. destruct (s_hist_inv _ _ _ ENV _ _ HH) as (a & K & _). pose proof (f_ok _ _ _ ENV) as OK.
  apply (ob_link cf _ _ _ OK _ _ _ _ _ K) in L. pose proof (some_ne _ _ L) as M. apply (ob_oku _ _ _ ENV _ _ _ _ _ K M) in D1.
  pose proof (after_update cf _ _ _ OK _ _ _ _ _ _ _ K M D1 E1) as K1.
  assert (M1 : a_map (a_update a i s t) i <> None) by (apply upd_map; auto).
  apply (ob_oku _ _ _ ENV _ _ _ _ _ K1 M1) in D2.
  pose proof (after_update cf _ _ _ OK _ _ _ _ _ _ _ K1 M1 D2 E2) as K2.
  eapply same_ss; eauto. apply aeq_sym. now apply aeq_update_back.
Qed.

(** A link that is not the last one, deleted and created again, leaves no trace. *)
Lemma L_C67_delete_recreate_unit cf tops lops st d i s t j st1 r1 st2 k st3 r3 :
  let U := unit_links cf tops lops in
  unit_env cf tops lops -> cfg_room cf -> u_hist cf tops lops st d -> is_link U st i s t -> separable U st i ->
  linked U st j -> i < j -> d_delete U i st = Val (st1, r1) -> d_create U st1 = Val (st2, Ok k) ->
  d_update U i s t st2 = Val (st3, r3) -> k = i /\ unit_same cf tops lops st st3.
Proof.
  intros U ENV RM HH L D LJ LT E1 E2 E3. destruct (u_hist_inv _ _ _ ENV _ _ HH) as (a & K & _). pose proof (e_ok _ _ _ ENV) as OK.
  apply (ob_link cf _ _ _ OK _ _ _ _ _ K) in L. apply (ob_sep cf _ _ _ OK _ _ _ K) in D.
  apply (ob_top cf _ _ _ OK _ _ K) in LJ.
  pose proof (after_delete cf _ _ _ OK _ _ _ _ _ K (some_ne _ _ L) D E1) as K1.
  destruct (after_create cf _ _ _ (u_cases _ _ _ ENV RM) _ _ _ _ K1 E2) as [-> K2]. specialize (K2 Logic.I).
  destruct (aeq_recreate a i s t L ltac:(lia)) as [NX AE].
  pose proof (new_det _ (lo_wf _ _ _ _ OK _ _ K1)) as N. rewrite NX in *. split; auto.
  pose proof (after_update cf _ _ _ OK _ _ _ _ _ _ _ K2 (some_ne _ _ N) (or_introl N) E3) as K3.
  eapply same_uu; eauto. now apply aeq_sym.
Qed.
Lemma L_C67_delete_recreate_split cf tops lops st d i s t j st1 r1 st2 k st3 r3 :
  let SL := split_links cf tops lops in
  unit_env cf tops lops -> cfg_room cf -> s_hist cf tops lops st d -> is_link SL st i s t -> s_okd SL st i ->
  linked SL st j -> i < j -> d_delete SL i st = Val (st1, r1) -> d_create SL st1 = Val (st2, Ok k) -> s_okc SL st1 st2 ->
  (t = 0 -> s = 0) -> d_update SL i s t st2 = Val (st3, r3) -> k = i /\ split_same cf tops lops st st3.
Proof.
  intros U ENV RM HH L D LJ LT E1 E2 OC TS E3. destruct (s_hist_inv _ _ _ ENV _ _ HH) as (a & K & _). pose proof (f_ok _ _ _ ENV) as OK.
  apply (ob_link cf _ _ _ OK _ _ _ _ _ K) in L. apply (ob_okd _ _ _ ENV _ _ _ K (some_ne _ _ L)) in D.
  apply (ob_top cf _ _ _ OK _ _ K) in LJ.
  pose proof (after_delete cf _ _ _ OK _ _ _ _ _ K (some_ne _ _ L) D E1) as K1.
  destruct (after_create cf _ _ _ (s_cases _ _ _ ENV RM) _ _ _ _ K1 E2) as [-> K2].
  specialize (K2 (s_okc_unref _ _ _ _ _ _ ENV K1 E2 OC)).
  destruct (aeq_recreate a i s t L ltac:(lia)) as [NX AE].
  pose proof (new_det _ (lo_wf _ _ _ _ OK _ _ K1)) as N. rewrite NX in *. split; auto.
  assert (UO : split_update_ok (a_create (a_delete a i)) i s t) by (split; [now left|]; split; auto; eauto).
  pose proof (after_update cf _ _ _ OK _ _ _ _ _ _ _ K2 (some_ne _ _ N) UO E3) as K3.
  eapply same_ss; eauto. now apply aeq_sym.
Qed.

(** Updates of two links can be swapped. *)
Lemma L_C67_updates_commute_unit cf tops lops st d i s t j s' t' st1 r1 st2 r2 st3 r3 st4 r4 :
  let U := unit_links cf tops lops in
  unit_env cf tops lops -> cfg_room cf -> u_hist cf tops lops st d -> linked U st i -> linked U st j -> i <> j ->
  separable U st i -> d_update U i s t st = Val (st1, r1) -> separable U st1 j -> d_update U j s' t' st1 = Val (st2, r2) ->
  separable U st j -> d_update U j s' t' st = Val (st3, r3) -> separable U st3 i -> d_update U i s t st3 = Val (st4, r4) ->
  unit_same cf tops lops st2 st4.
Proof.
  intros U ENV RM HH LI LJ NE D1 E1 D2 E2 D3 E3 D4 E4. destruct (u_hist_inv _ _ _ ENV _ _ HH) as (a & K & _). pose proof (e_ok _ _ _ ENV) as OK.
  apply (ob_linked cf _ _ _ OK _ _ _ K) in LI, LJ. apply (ob_sep cf _ _ _ OK _ _ _ K) in D1, D3.
  pose proof (after_update cf _ _ _ OK _ _ _ _ _ _ _ K LI D1 E1) as K1.
  pose proof (after_update cf _ _ _ OK _ _ _ _ _ _ _ K LJ D3 E3) as K3.
  apply (ob_sep cf _ _ _ OK _ _ _ K1) in D2. apply (ob_sep cf _ _ _ OK _ _ _ K3) in D4.
  pose proof (after_update cf _ _ _ OK _ _ _ _ _ _ _ K1 (proj2 (upd_map _ _ _ _ _) (or_intror LJ)) D2 E2) as K2.
  pose proof (after_update cf _ _ _ OK _ _ _ _ _ _ _ K3 (proj2 (upd_map _ _ _ _ _) (or_intror LI)) D4 E4) as K4.
  eapply same_uu; eauto. now apply aeq_commute.
Qed.
Lemma L_C67_updates_commute_split cf tops lops st d i s t j s' t' st1 r1 st2 r2 st3 r3 st4 r4 :
  let SL := split_links cf tops lops in
  unit_env cf tops lops -> cfg_room cf -> s_hist cf tops lops st d -> linked SL st i -> linked SL st j -> i <> j ->
  s_oku SL st i s t -> d_update SL i s t st = Val (st1, r1) -> s_oku SL st1 j s' t' -> d_update SL j s' t' st1 = Val (st2, r2) ->
  s_oku SL st j s' t' -> d_update SL j s' t' st = Val (st3, r3) -> s_oku SL st3 i s t -> d_update SL i s t st3 = Val (st4, r4) ->
  split_same cf tops lops st2 st4.
Proof.
  intros U ENV RM HH LI LJ NE D1 E1 D2 E2 D3 E3 D4 E4. destruct (s_hist_inv _ _ _ ENV _ _ HH) as (a & K & _). pose proof (f_ok _ _ _ ENV) as OK.
  apply (ob_linked cf _ _ _ OK _ _ _ K) in LI, LJ.
  apply (ob_oku _ _ _ ENV _ _ _ _ _ K LI) in D1. apply (ob_oku _ _ _ ENV _ _ _ _ _ K LJ) in D3.
  pose proof (after_update cf _ _ _ OK _ _ _ _ _ _ _ K LI D1 E1) as K1.
  pose proof (after_update cf _ _ _ OK _ _ _ _ _ _ _ K LJ D3 E3) as K3.
  pose proof (proj2 (upd_map a i s t _) (or_intror LJ)) as LJ1. pose proof (proj2 (upd_map a j s' t' _) (or_intror LI)) as LI3.
  apply (ob_oku _ _ _ ENV _ _ _ _ _ K1 LJ1) in D2. apply (ob_oku _ _ _ ENV _ _ _ _ _ K3 LI3) in D4.
  pose proof (after_update cf _ _ _ OK _ _ _ _ _ _ _ K1 LJ1 D2 E2) as K2.
  pose proof (after_update cf _ _ _ OK _ _ _ _ _ _ _ K3 LI3 D4 E4) as K4.
  eapply same_ss; eauto. now apply aeq_commute.
Qed.

(** Closing and opening again leaves no trace. *)
Lemma L_C67_reopen_unit cf tops lops st d st' : unit_env cf tops lops -> cfg_room cf -> u_hist cf tops lops st d ->
  u_reopen cf tops lops st st' -> unit_same cf tops lops st st'.
Proof.
  intros ENV RM HH E. destruct (u_hist_inv _ _ _ ENV _ _ HH) as (a & K & _).
  eapply same_uu; eauto using aeq_refl. eapply u_reopen_inv; eauto.
Qed.
Lemma L_C67_reopen_split cf tops lops st d st' : unit_env cf tops lops -> cfg_room cf -> s_hist cf tops lops st d ->
  s_reopen cf tops lops st st' -> split_same cf tops lops st st'.
Proof.
  intros ENV RM HH E. destruct (s_hist_inv _ _ _ ENV _ _ HH) as (a & K & _).
  eapply same_ss; eauto using aeq_refl. eapply s_reopen_inv; eauto.
Qed.

(** The implementations of the trees and of the lists do not show: two new stores with
    different ones answer alike, and a memory filled with one can be worked on with another. *)
Lemma L_C67_other_trees_unit cf tops lops tops2 lops2 : unit_env cf tops lops -> unit_env cf tops2 lops2 -> cfg_room cf ->
  (forall st st', u_start cf st -> u_start cf st' -> unit_future cf tops lops st (unit_links cf tops2 lops2) st') /\
  (forall st d, u_hist cf tops lops st d -> unit_future cf tops lops st (unit_links cf tops2 lops2) st).
Proof.
  intros ENV ENV2 RM. split.
  - intros st st' K K'. eapply future_uu; eauto using aeq_refl; eapply u_start_inv; eauto.
  - intros st d HH. destruct (u_hist_inv _ _ _ ENV _ _ HH) as (a & K & _). eapply future_uu; eauto using aeq_refl.
Qed.
Lemma L_C67_other_trees_split cf tops lops tops2 lops2 : unit_env cf tops lops -> unit_env cf tops2 lops2 -> cfg_room cf ->
  (forall st st', s_start cf st -> s_start cf st' -> split_future cf tops lops st (split_links cf tops2 lops2) st') /\
  (forall st d, s_hist cf tops lops st d -> split_future cf tops lops st (split_links cf tops2 lops2) st).
Proof.
  intros ENV ENV2 RM. split.
  - intros st st' K K'. eapply future_ss; eauto using aeq_refl; eapply s_start_inv; eauto.
  - intros st d HH. destruct (s_hist_inv _ _ _ ENV _ _ HH) as (a & K & _). eapply future_ss; eauto using aeq_refl.
Qed.

(** A new split store and a new unit store answer alike, for a client within the discipline
    of the split store. *)
Lemma L_C67_split_unit cf tops lops tops2 lops2 : unit_env cf tops lops -> unit_env cf tops2 lops2 -> cfg_room cf ->
  forall st st', s_start cf st -> u_start cf st' -> split_future cf tops lops st (unit_links cf tops2 lops2) st'.
Proof.
  intros ENV ENV2 RM st st' K K'. eapply future_su; eauto using aeq_refl; [eapply s_start_inv|eapply u_start_inv]; eauto.
Qed.

(** A link that was last is not created again when there is a hole below it. *)
Lemma L_C67_delete_recreate_last_refuted : exists st d st1 r1 st2 k,
  u_hist ex_cf ref_tree_ops ref_list_ops st d /\ is_link ex_U st 3 2 1 /\ separable ex_U st 3 /\
  d_delete ex_U 3 st = Val (st1, r1) /\ d_create ex_U st1 = Val (st2, Ok k) /\ k <> 3.
Proof.
  destruct (ex_reach ex3h) as (d & HH & _); [vm_compute; reflexivity..|].
  exists (ex_st ex3h), d, (ex_st (ex3h ++ [De 3])), (Ok 0), (ex_st (ex3h ++ [De 3; Cr])), 1.
  split; [exact HH|]. split; [unfold is_link; vm_compute; reflexivity|].
  split; [apply distinct_separable, ex_distinct; vm_compute; reflexivity|].
  split; [vm_compute; reflexivity|]. split; [vm_compute; reflexivity|discriminate].
Qed.

(** The hypotheses above are met: both stores with three links, and the states after the
    calls of each claim. *)
Lemma disc_cons {S} (I : LinksI S) okC okU okD okQ o l st st' r : step I o st = Val (st', r) ->
  may I okC okU okD okQ o st -> disciplined I okC okU okD okQ l st' -> disciplined I okC okU okD okQ (o :: l) st.
Proof. intros E M D. cbn [disciplined]. split; auto. intros st2 r2 E2. rewrite E in E2. now injection E2 as <- <-. Qed.
Lemma ex_may_s l l' r : scheck a_empty (l ++ [Cr]) = true ->
  match run ex_S l ex_sstart with Some _ => true | None => false end = true ->
  d_create ex_S (ex_sst l) = Val (ex_sst l', Ok r) -> srep ex_cf (ex_sst l') (a_create (arun a_empty l)) -> s_okc ex_S (ex_sst l) (ex_sst l').
Proof.
  intros A E D K' i N1 N2.
  assert (scheck a_empty l = true /\ scheck1 (arun a_empty l) Cr = true) as [A1 A2].
  { revert A. unfold arun. generalize a_empty. clear. induction l as [|c l IH]; intros a A.
    - cbn [app scheck] in A. apply andb_true_iff in A as [A _]. auto.
    - cbn [app scheck fold_left] in *. apply andb_true_iff in A as [A1 A2]. apply IH in A2 as [A2 A3].
      split; auto. now rewrite A1, A2. }
  destruct (ex_sreach l A1 E) as (d & _ & K). pose proof (f_ok _ _ _ ex_env) as OK.
  apply (ob_none ex_cf _ _ _ OK _ _ _ K) in N1. apply (ob_linked ex_cf _ _ _ OK _ _ _ K') in N2.
  apply (ob_unref _ _ _ ex_env _ _ _ K). pose proof (lo_wf _ _ _ _ OK _ _ K) as W.
  rewrite a_create_map in N2 by auto. destruct (N.eq_dec i (a_next (arun a_empty l))) as [->|NE].
  - now apply unrefb_ok.
  - rewrite upd_other in N2 by auto. congruence.
Qed.
Lemma L_C67_nonvacuous :
  cfg_room ex_cf /\ unit_env ex_cf ref_tree_ops ref_list_ops /\
  (exists st d st1 st2 st3 st4, u_hist ex_cf ref_tree_ops ref_list_ops st d /\ distinct_pairs ex_U st /\
     d_create ex_U st = Val (st1, Ok 4) /\ d_delete ex_U 4 st1 = Val (st2, Ok 0) /\
     d_delete ex_U 2 st = Val (st3, Ok 0) /\ d_create ex_U st3 = Val (st4, Ok 2) /\ linked ex_U st 3 /\
     let q := [c_any ex_cf; 1; c_any ex_cf] in
     both ex_U ex_U [OEach q; ODelete 2; OGet 2; OCount q; OCreate; OCreate] st st2 =
       Val [(AVisited [mkLink 1 1 1; mkLink 2 1 2], AVisited [mkLink 1 1 1; mkLink 2 1 2]); (ACall (Ok 0), ACall (Ok 0));
            (AGot None, AGot None); (ACounted 1, ACounted 1); (ACall (Ok 2), ACall (Ok 2)); (ACall (Ok 4), ACall (Ok 4))]) /\
  (exists st d st1 st2, s_hist ex_cf ref_tree_ops ref_list_ops st d /\ distinct_pairs ex_S st /\
     d_create ex_S st = Val (st1, Ok 4) /\ s_okc ex_S st st1 /\ d_delete ex_S 4 st1 = Val (st2, Ok 0) /\
     let q := [c_any ex_cf; 1; c_any ex_cf] in
     disciplined ex_S (s_okc ex_S) (s_oku ex_S) (s_okd ex_S) (split_query ex_cf ex_S) [OEach q; OUpdate 3 2 4; OGet 3; ODelete 2; OCount []] st /\
     both ex_S ex_U [OEach q; OUpdate 3 2 4; OGet 3; ODelete 2; OCount []] st (ex_st ex3) =
       Val [(AVisited [mkLink 1 1 1; mkLink 2 1 2], AVisited [mkLink 1 1 1; mkLink 2 1 2]); (ACall (Ok 3), ACall (Ok 3));
            (AGot (Some (mkLink 3 2 4)), AGot (Some (mkLink 3 2 4))); (ACall (Ok 0), ACall (Ok 0)); (ACounted 2, ACounted 2)]).
Proof.
  split; [exact ex_cf_room|]. split; [exact ex_env|]. split.
  - destruct ex3_reach as (d & HH & DP & _ & _ & L3).
    exists (ex_st ex3), d, (ex_st (ex3 ++ [Cr])), (ex_st (ex3 ++ [Cr; De 4])), (ex_st (ex3 ++ [De 2])), (ex_st (ex3 ++ [De 2; Cr])).
    split; [exact HH|]. split; [exact DP|]. do 4 (split; [vm_compute; reflexivity|]).
    split; [exists 2, 1; exact L3|]. vm_compute; reflexivity.
  - destruct ex3_sreach as (d & HH & DP & L1 & _ & L3).
    exists (ex_sst ex3), d, (ex_sst (ex3 ++ [Cr])), (ex_sst (ex3 ++ [Cr; De 4])).
    split; [exact HH|]. split; [exact DP|]. split; [vm_compute; reflexivity|]. split.
    { apply (ex_may_s _ _ 4); [vm_compute; reflexivity..|].
      destruct (ex_sreach (ex3 ++ [Cr])) as (d' & _ & K); [vm_compute; reflexivity..|]. exact K. }
    split; [vm_compute; reflexivity|]. cbv zeta. split; [|vm_compute; reflexivity].
    assert (E1 : step ex_S (OEach [c_any ex_cf; 1; c_any ex_cf]) (ex_sst ex3) = Val (ex_sst ex3, AVisited [mkLink 1 1 1; mkLink 2 1 2])) by (vm_compute; reflexivity).
    assert (E2 : step ex_S (OUpdate 3 2 4) (ex_sst ex3) = Val (ex_sst (ex3 ++ [Up 3 2 4]), ACall (Ok 3))) by (vm_compute; reflexivity).
    assert (E3 : step ex_S (OGet 3) (ex_sst (ex3 ++ [Up 3 2 4])) = Val (ex_sst (ex3 ++ [Up 3 2 4]), AGot (Some (mkLink 3 2 4)))) by (vm_compute; reflexivity).
    assert (E4 : step ex_S (ODelete 2) (ex_sst (ex3 ++ [Up 3 2 4])) = Val (ex_sst (ex3 ++ [Up 3 2 4; De 2]), ACall (Ok 0))) by (vm_compute; reflexivity).
    assert (DP2 : distinct_pairs ex_S (ex_sst (ex3 ++ [Up 3 2 4]))) by (apply ex_sdistinct; vm_compute; reflexivity).
    apply (disc_cons _ _ _ _ _ _ _ _ _ _ E1).
    { split; [split; [cbn; lia|intros (_ & _ & X); destruct (X eq_refl)]|]. split; [intros _; split; discriminate|].
      right. split; [discriminate|]. split; [discriminate|]. right; left. exists 1, 1. exact L1. }
    apply (disc_cons _ _ _ _ _ _ _ _ _ _ E2).
    { right. split; [apply distinct_separable; exact DP|]. split; [discriminate|]. intros [X|X]; discriminate. }
    apply (disc_cons _ _ _ _ _ _ _ _ _ _ E3 Logic.I).
    apply (disc_cons _ _ _ _ _ _ _ _ _ _ E4).
    { apply s_okd_distinct; exact DP2. }
    split; [|intros; exact Logic.I].
    split; [split; [cbn; lia|intros []]|]. split; exact Logic.I.
Qed.
