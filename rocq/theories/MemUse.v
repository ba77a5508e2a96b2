(** How much memory the stores use (proofs; the statements are repeated in PropMem.v). *)
From Coq Require Import NArith List Bool Lia Permutation Sorted.
From Verif Require Import Base Trees Lists Spec Iface UnitModel UnitInv UnitOps UnitLinks LinkModel SplitModel Forest
  SplitInv SplitReads SplitOps SplitWrites SplitLinks Doublets Obs DoubletsOK Hist Claims TreeImpl UnitHist SplitHist
  SplitClaims UnitClaims.
Import ListNotations.
Open Scope N_scope.

(** ** The states a store goes through *)
Section Trace.
  Context {S : Type}.
  Variable I : LinksI S.
  Variable start : S -> Prop.
  Variable reopen : S -> S -> Prop.
  Variable okU : S -> N -> N -> N -> Prop.
  Variable okD : S -> N -> Prop.
  Variable okC : S -> S -> Prop.

  (** One call (with any handler and any outcome) or reopening. *)
  Inductive step (st st' : S) : Prop :=
  | step_create H (h : whandler H) q x x' r :
      li_create I H h q st x = Val (st', x', r) -> okC st st' -> step st st'
  | step_update H (h : whandler H) q ch i s t x x' r :
      qget q 0 = Val i -> qget ch 1 = Val s -> qget ch 2 = Val t -> okU st i s t ->
      li_update I H h q ch st x = Val (st', x', r) -> step st st'
  | step_delete H (h : whandler H) q i x x' r :
      qget q 0 = Val i -> okD st i -> li_delete I H h q st x = Val (st', x', r) -> step st st'
  | step_reopen : reopen st st' -> step st st'.
  (** The states of a history, the latest first. *)
  Inductive trace : list S -> Prop :=
  | trace_start st : start st -> trace [st]
  | trace_step st st' l : trace (st :: l) -> step st st' -> trace (st' :: st :: l).

  (** No more than [p] links at any time. *)
  Definition at_most (l : list S) (p : N) : Prop :=
    forall st n, In st l -> li_count I st [] = Val n -> n <= p.
End Trace.

Definition u_trace (cf : cfg) (tops : tree_ops) (lops : list_ops) : list ust -> Prop :=
  trace (unit_links cf tops lops) (u_start cf) (u_reopen cf tops lops)
    (fun st i _ _ => u_okc cf tops lops st i) (u_okc cf tops lops) (fun _ _ => True).
Definition s_trace (cf : cfg) (tops : tree_ops) (lops : list_ops) : list sst -> Prop :=
  let I := split_links cf tops lops in
  trace I (s_start cf) (s_reopen cf tops lops) (s_oku I) (s_okd I) (s_okc I).

Lemma u_trace_hist cf tops lops l : u_trace cf tops lops l -> forall st l', l = st :: l' -> exists d, u_hist cf tops lops st d.
Proof.
  induction 1 as [st HS|st st' l T IH HS]; intros st0 l' E; injection E as <- <-.
  - exists []. now apply hist_start.
  - destruct (IH _ _ eq_refl) as (d & HH). destruct HS as [H h q x x' r E _|H h q ch i s t x x' r Q1 Q2 Q3 O E|H h q i x x' [f|e] Q O E|RE].
    + exists d. eapply hist_create; eauto.
    + exists d. eapply hist_update; eauto.
    + exists (i :: d). eapply hist_delete; eauto.
    + exists d. eapply hist_delete_err; eauto.
    + exists d. eapply hist_reopen; eauto.
Qed.
Lemma s_trace_hist cf tops lops l : s_trace cf tops lops l -> forall st l', l = st :: l' -> exists d, s_hist cf tops lops st d.
Proof.
  induction 1 as [st HS|st st' l T IH HS]; intros st0 l' E; injection E as <- <-.
  - exists []. now apply histc_start.
  - destruct (IH _ _ eq_refl) as (d & HH). destruct HS as [H h q x x' r E C|H h q ch i s t x x' r Q1 Q2 Q3 O E|H h q i x x' [f|e] Q O E|RE].
    + exists d. eapply histc_create; eauto.
    + exists d. eapply histc_update; eauto.
    + exists (i :: d). eapply histc_delete; eauto.
    + exists d. eapply histc_delete_err; eauto.
    + exists d. eapply histc_reopen; eauto.
Qed.

(** ** Which functions change the size of the memory *)
Ltac inv1 :=
  match goal with
  | E : Val _ = Val _ |- _ => injection E; clear E; intros; subst
  | E : Panic = Val _ |- _ => discriminate E
  | E : UB = Val _ |- _ => discriminate E
  | E : Diverge = Val _ |- _ => discriminate E
  | E : Ok _ = Ok _ |- _ => injection E; clear E; intros; subst
  | E : Err _ = Ok _ |- _ => discriminate E
  | E : Some _ = Some _ |- _ => injection E; clear E; intros; subst
  | E : None = Some _ |- _ => discriminate E
  | E : (if ?b then Some _ else None) = Some _ |- _ => destruct b
  | E : obind ?m _ = Val _ |- _ => let Em := fresh "Em" in destruct m eqn:Em; cbn [obind] in E; try discriminate E
  | E : (let (_, _) := ?p in _) = Val _ |- _ => let Ep := fresh "Ep" in destruct p eqn:Ep; cbn [obind] in E
  end.
Ltac inv_bind := repeat inv1.
(** ... and every branch *)
Ltac inv_all :=
  repeat (inv_bind; match goal with
    | E : (match ?x with _ => _ end) = Val _ |- _ => let Ex := fresh "Ex" in destruct x eqn:Ex; try discriminate E
    end); inv_bind.

Section UnitSize.
  Variables (cf : cfg) (tops : tree_ops) (lops : list_ops).

  Lemma len_detach_source st i st' : u_detach_source tops st i = Val st' -> u_len st' = u_len st.
  Proof. unfold u_detach_source. intros E. inv_bind. reflexivity. Qed.
  Lemma len_attach_source st i st' : u_attach_source tops st i = Val st' -> u_len st' = u_len st.
  Proof. unfold u_attach_source. intros E. inv_bind. reflexivity. Qed.
  Lemma len_detach_target st i st' : u_detach_target tops st i = Val st' -> u_len st' = u_len st.
  Proof. unfold u_detach_target. intros E. inv_bind. reflexivity. Qed.
  Lemma len_attach_target st i st' : u_attach_target tops st i = Val st' -> u_len st' = u_len st.
  Proof. unfold u_attach_target. intros E. inv_bind. reflexivity. Qed.
  Lemma len_unused_detach st i st' : u_unused_detach lops st i = Val st' -> u_len st' = u_len st.
  Proof. unfold u_unused_detach. intros E. inv_bind. reflexivity. Qed.
  Lemma len_unused_attach st i st' : u_unused_attach lops st i = Val st' -> u_len st' = u_len st.
  Proof. unfold u_unused_attach. intros E. inv_bind. reflexivity. Qed.
  Lemma len_when b f st st' : (forall s s', f s = Val s' -> u_len s' = u_len s) -> when b f st = Val st' -> u_len st' = u_len st.
  Proof. unfold when. destruct b; intros F E; [eauto|]. now injection E as <-. Qed.
  Ltac lens :=
    repeat match goal with
    | E : u_detach_source _ _ _ = Val _ |- _ => apply len_detach_source in E
    | E : u_attach_source _ _ _ = Val _ |- _ => apply len_attach_source in E
    | E : u_detach_target _ _ _ = Val _ |- _ => apply len_detach_target in E
    | E : u_attach_target _ _ _ = Val _ |- _ => apply len_attach_target in E
    | E : u_unused_detach _ _ _ = Val _ |- _ => apply len_unused_detach in E
    | E : u_unused_attach _ _ _ = Val _ |- _ => apply len_unused_attach in E
    end; cbn [u_len set_alloc set_data set_lhdr] in *.
  Lemma len_relink st i os ot s t st' : u_relink tops st i os ot s t = Val st' -> u_len st' = u_len st.
  Proof. unfold u_relink, when. intros E. inv_all; lens; congruence. Qed.
  Lemma len_update H (h : whandler H) q ch st x st' x' r : u_update cf tops h q ch st x = Val (st', x', r) -> u_len st' = u_len st.
  Proof. unfold u_update. intros E. inv_all; auto. eapply len_relink; eauto. Qed.
  Lemma len_trim fuel : forall st st', u_trim lops fuel st = Val st' -> u_len st' = u_len st.
  Proof.
    induction fuel as [|f IH]; intros st st' E; cbn [u_trim] in E; [discriminate|]. inv_all; auto;
      match goal with E : u_trim _ _ _ = Val _ |- _ => apply IH in E; cbn in E end; lens; congruence.
  Qed.
  Lemma len_delete H (h : whandler H) q st x st' x' r : u_delete cf tops lops h q st x = Val (st', x', r) -> u_len st' = u_len st.
  Proof.
    unfold u_delete. intros E. inv_all; auto;
      repeat match goal with
      | E : u_update _ _ _ _ _ _ _ = Val _ |- _ => apply len_update in E
      | E : u_trim _ _ _ = Val _ |- _ => apply len_trim in E; cbn in E
      end; lens; congruence.
  Qed.
  (** create grows the memory by one step, if nothing is free and at most the last cell is unused. *)
  Lemma len_create H (h : whandler H) q st x st' x' r : u_create cf lops h q st x = Val (st', x', r) ->
    u_len st' = u_len st \/
    (u_len st' = u_len st + c_step cf /\ h_first st = c_null cf /\ h_reserved st <= h_alloc st + 1 /\ exists f, r = Ok f).
  Proof.
    unfold u_create, u_grow, u_alloc_mem, csub. intros E. destruct (N.eqb_spec (h_first st) (c_null cf)) as [F|F].
    - inv_all; auto.
      + right. repeat split; eauto.
        match goal with L : (_ - 1 <=? _) = true, L' : (1 <=? _) = true |- _ => apply N.leb_le in L; apply N.leb_le in L'; lia end.
    - inv_all. lens. now left.
  Qed.
  Lemma len_open m st' : u_open cf m = Val (Ok st') -> u_len st' = N.max (c_step cf) (h_alloc m).
  Proof. unfold u_open, u_alloc_mem. intros E. inv_all. reflexivity. Qed.
End UnitSize.

Definition ssize (st : sst) : N * N * N := (s_dcap st, s_dlen st, s_ilen st).

Section SplitSize.
  Variables (cf : cfg) (tops : tree_ops) (lops : list_ops).

  Lemma sz_detach_is st v i st' : s_detach_is tops st v i = Val st' -> ssize st' = ssize st.
  Proof. unfold s_detach_is. intros E. inv_bind. reflexivity. Qed.
  Lemma sz_attach_is st v i st' : s_attach_is tops st v i = Val st' -> ssize st' = ssize st.
  Proof. unfold s_attach_is. intros E. inv_bind. reflexivity. Qed.
  Lemma sz_detach_it st v i st' : s_detach_it tops st v i = Val st' -> ssize st' = ssize st.
  Proof. unfold s_detach_it. intros E. inv_bind. reflexivity. Qed.
  Lemma sz_attach_it st v i st' : s_attach_it tops st v i = Val st' -> ssize st' = ssize st.
  Proof. unfold s_attach_it. intros E. inv_bind. reflexivity. Qed.
  Lemma sz_detach_es st i st' : s_detach_es tops st i = Val st' -> ssize st' = ssize st.
  Proof. unfold s_detach_es. intros E. inv_bind. reflexivity. Qed.
  Lemma sz_attach_es st i st' : s_attach_es tops st i = Val st' -> ssize st' = ssize st.
  Proof. unfold s_attach_es. intros E. inv_bind. reflexivity. Qed.
  Lemma sz_detach_et st i st' : s_detach_et tops st i = Val st' -> ssize st' = ssize st.
  Proof. unfold s_detach_et. intros E. inv_bind. reflexivity. Qed.
  Lemma sz_attach_et st i st' : s_attach_et tops st i = Val st' -> ssize st' = ssize st.
  Proof. unfold s_attach_et. intros E. inv_bind. reflexivity. Qed.
  Lemma sz_unused_detach st i st' : s_unused_detach lops st i = Val st' -> ssize st' = ssize st.
  Proof. unfold s_unused_detach. intros E. inv_bind. reflexivity. Qed.
  Lemma sz_unused_attach st i st' : s_unused_attach lops st i = Val st' -> ssize st' = ssize st.
  Proof. unfold s_unused_attach. intros E. inv_bind. reflexivity. Qed.
  Ltac szs :=
    repeat match goal with
    | E : s_detach_is _ _ _ _ = Val _ |- _ => apply sz_detach_is in E
    | E : s_attach_is _ _ _ _ = Val _ |- _ => apply sz_attach_is in E
    | E : s_detach_it _ _ _ _ = Val _ |- _ => apply sz_detach_it in E
    | E : s_attach_it _ _ _ _ = Val _ |- _ => apply sz_attach_it in E
    | E : s_detach_es _ _ _ = Val _ |- _ => apply sz_detach_es in E
    | E : s_attach_es _ _ _ = Val _ |- _ => apply sz_attach_es in E
    | E : s_detach_et _ _ _ = Val _ |- _ => apply sz_detach_et in E
    | E : s_attach_et _ _ _ = Val _ |- _ => apply sz_attach_et in E
    | E : s_unused_detach _ _ _ = Val _ |- _ => apply sz_unused_detach in E
    | E : s_unused_attach _ _ _ = Val _ |- _ => apply sz_unused_attach in E
    end.
  Lemma sz_set_data st d : ssize (s_set_data st d) = ssize st. Proof. reflexivity. Qed.
  Lemma sz_set_alloc st n : ssize (s_set_alloc st n) = ssize st. Proof. reflexivity. Qed.
  Lemma sz_set_reserved st n : ssize (s_set_reserved st n) = ssize st. Proof. reflexivity. Qed.

  Lemma sz_for l f : (forall x st st', f x st = Val st' -> ssize st' = ssize st) ->
    forall st st', s_for l f st = Val st' -> ssize st' = ssize st.
  Proof.
    intros F. induction l as [|k l IH]; cbn [s_for]; intros st st' E; inv_bind; auto.
    apply IH in E. apply F in Em. congruence.
  Qed.
  Lemma sz_resolve_internal st i st' : s_resolve_internal cf tops st i = Val st' -> ssize st' = ssize st.
  Proof.
    unfold s_resolve_internal. intros E. inv_bind. apply sz_for in E; [apply sz_for in Em0; [congruence|]|];
      intros; inv_bind; szs; congruence.
  Qed.
  Lemma sz_resolve_external st i st' : s_resolve_external cf tops st i = Val st' -> ssize st' = ssize st.
  Proof.
    unfold s_resolve_external. intros E. inv_bind. apply sz_for in E; [apply sz_for in Em0; [congruence|]|];
      intros; inv_bind; szs; congruence.
  Qed.
  Lemma sz_relink st i os ot s t st' : s_relink tops st i os ot s t = Val st' -> ssize st' = ssize st.
  Proof. unfold s_relink, s_when. intros E. inv_all; szs; rewrite ?sz_set_data in *; congruence. Qed.
  Lemma sz_update H (h : whandler H) q ch st x st' x' r : s_update cf tops h q ch st x = Val (st', x', r) -> ssize st' = ssize st.
  Proof. unfold s_update. intros E. inv_all; auto. eapply sz_relink; eauto. Qed.
  Lemma sz_trim fuel : forall st st', s_trim lops fuel st = Val st' -> ssize st' = ssize st.
  Proof.
    induction fuel as [|f IH]; intros st st' E; cbn [s_trim] in E; [discriminate|]. inv_all; auto;
      match goal with E : s_trim _ _ _ = Val _ |- _ => apply IH in E; rewrite ?sz_set_alloc in E end; szs; congruence.
  Qed.
  Lemma sz_delete H (h : whandler H) q st x st' x' r : s_delete cf tops lops h q st x = Val (st', x', r) -> ssize st' = ssize st.
  Proof.
    unfold s_delete. intros E. inv_all; auto;
      repeat match goal with
      | E : s_update _ _ _ _ _ _ _ = Val _ |- _ => apply sz_update in E
      | E : s_resolve_internal _ _ _ _ = Val _ |- _ => apply sz_resolve_internal in E
      | E : s_trim _ _ _ = Val _ |- _ => apply sz_trim in E; rewrite ?sz_set_alloc in E
      end; szs; congruence.
  Qed.
  (** create grows both memories by one step, if nothing is free and at most the last cell is unused. *)
  Lemma sz_create H (h : whandler H) q st x st' x' r : both_or_none (s_orc st) ->
    s_create cf tops lops h q st x = Val (st', x', r) ->
    ssize st' = ssize st \/
    (ssize st' = (s_dcap st + c_step cf, s_dcap st + c_step cf, s_ilen st + c_step cf) /\
     sh_first st = c_null cf /\ sh_reserved st <= sh_alloc st + 1 /\ exists f, r = Ok f).
  Proof.
    intros B. unfold s_create, s_grow, s_alloc_mem, csub. intros E. destruct (N.eqb_spec (sh_first st) (c_null cf)) as [F|F].
    - pose proof (B 0%nat (s_dcap st + c_step cf) (s_ilen st + c_step cf)) as B0.
      destruct (s_orc st 0%nat (s_dcap st + c_step cf) (s_ilen st + c_step cf)) eqn:O; try congruence;
        inv_all; auto;
        try match goal with E : s_resolve_external _ _ _ _ = Val _ |- _ => apply sz_resolve_external in E; rewrite ?sz_set_alloc in E end;
        auto; try (right; repeat split; eauto; try match goal with L : (_ - 1 <=? _) = true, L' : (1 <=? _) = true |- _ => apply N.leb_le in L; apply N.leb_le in L'; lia end);
        rewrite ?sz_set_reserved in *; auto.
    - inv_all. match goal with E : s_resolve_external _ _ _ _ = Val _ |- _ => apply sz_resolve_external in E end. szs. left. congruence.
  Qed.
  Lemma sz_open m st' : s_open cf m = Val (Ok st') ->
    let c := s_capacity cf (sh_alloc m) in ssize st' = (c, c, c).
  Proof.
    intros E c. unfold s_open, s_alloc_mem in E.
    destruct (s_orc m 0%nat (c_page cf) (c_page cf)) eqn:O1; cbn [negb] in E; try discriminate.
    destruct (s_header _); cbn [obind] in E; try discriminate. cbn [s_orc s_dcap s_ilen] in E. change (sh_alloc (mkS _ _ _ _ _ _ _ _ _)) with (sh_alloc m) in E.
    fold (s_capacity cf (sh_alloc m)) in E. fold c in E.
    destruct (s_orc m 1%nat c c) eqn:O2; cbn [negb] in E; inv_bind; try discriminate. reflexivity.
  Qed.
End SplitSize.

(** ** The highest link never exceeds the largest number of links there were *)
Lemma top_of_le m n : top_of m n <= N.of_nat n.
Proof. induction n as [|n IH]; cbn [top_of]; [lia|]. destruct (m (N.of_nat (S n))); lia. Qed.
Lemma a_delete_top a i : a_top (a_delete a i) <= a_top a.
Proof.
  unfold a_delete. destruct (i <? a_top a); cbn [a_top]; [lia|].
  pose proof (top_of_le (upd (a_map a) i None) (N.to_nat (a_top a))). lia.
Qed.

Section Top.
  Variables (cf : cfg) (sp : store_spec) (S : Type) (I : LinksI S) (R : S -> astate -> Prop).
  Hypothesis IOK : links_ok cf sp I R.
  Variable start : S -> Prop.
  Variable reopen : S -> S -> Prop.
  Variable okU : S -> N -> N -> N -> Prop.
  Variable okD : S -> N -> Prop.
  Variable okC : S -> S -> Prop.
  Hypothesis RE : forall st st' a, R st a -> reopen st st' -> R st' a.
  Hypothesis SU : forall st a i s t, R st a -> a_map a i <> None -> okU st i s t -> sp_update sp a i s t.
  Hypothesis SD : forall st a i, R st a -> a_map a i <> None -> okD st i -> sp_delete sp a i.
  Hypothesis CR : forall st a H (h : whandler H) q x st' x' r, R st a ->
    li_create I H h q st x = Val (st', x', r) -> okC st st' -> R st' a \/ R st' (a_create a).

  Lemma step_top st st' a : R st a -> step I reopen okU okD okC st st' ->
    exists a', R st' a' /\ (a_top a' <= a_top a \/ (a_free a' = [] /\ a_free a = [] /\ a_top a' = a_top a + 1)).
  Proof.
    intros K [H h q x x' r E C|H h q ch i s t x x' r Q1 Q2 Q3 O E|H h q i x x' r Q O E|E].
    - destruct (CR _ _ _ _ _ _ _ _ _ K E C) as [K'|K'].
      + exists a. split; [auto|left; lia].
      + exists (a_create a). split; auto. unfold a_create. destruct (a_free a) eqn:F; cbn [a_top a_free]; [auto|left; lia].
    - destruct (a_map a i) as [p|] eqn:M.
      + assert (NN : a_map a i <> None) by congruence.
        destruct (lo_update _ _ _ _ IOK _ _ _ _ _ _ _ K Q1 Q2 Q3 NN (SU _ _ _ _ _ K NN O)) as (st2 & b & K' & C).
        rewrite (C H h x) in E. destruct (h x b (mkLink i s t)). injection E as <- _ _. exists (a_update a i s t). split; auto. left. cbn. lia.
      + rewrite (lo_update_none _ _ _ _ IOK _ _ _ _ _ _ _ K Q1 Q2 Q3 M H h x) in E. injection E as <- _ _.
        exists a. split; [auto|left; lia].
    - destruct (a_map a i) as [[s t]|] eqn:M.
      + assert (NN : a_map a i <> None) by congruence.
        destruct (lo_delete _ _ _ _ IOK _ _ _ _ _ _ K Q M (SD _ _ _ K NN O)) as (st2 & K' & C).
        rewrite (C H h x) in E. destruct (h x (mkLink i s t) nothing). injection E as <- _ _.
        exists (a_delete a i). split; auto. left. apply a_delete_top.
      + rewrite (lo_delete_none _ _ _ _ IOK _ _ _ _ K Q M H h x) in E. injection E as <- _ _.
        exists a. split; [auto|left; lia].
    - exists a. split; [eauto|left; lia].
  Qed.
End Top.

Lemma at_most_tl S (I : LinksI S) st l p : at_most I (st :: l) p -> at_most I l p.
Proof. intros A s n K. apply A. now right. Qed.

(** ** C59, the single-memory store *)
Section UnitMem.
  Variables (cf : cfg) (tops : tree_ops) (lops : list_ops).
  Hypothesis ENV : unit_env cf tops lops.
  Notation U := (unit_links cf tops lops).
  Let OK := e_ok _ _ _ ENV.

  Lemma u_count0 st a : uinv cf st a -> li_count U st [] = Val (N.of_nat (length (alinks a))).
  Proof.
    intros K. apply (count_R0 cf _ U _ OK); auto. intros st0 a0 K0. apply (e_spq _ _ _ ENV _ _ _ K0); cbn; auto. discriminate.
  Qed.

  Lemma u_nohole st a : uinv cf st a -> no_hole U st <-> a_free a = [].
  Proof.
    intros K. unfold no_hole. setoid_rewrite (ob_hole cf _ U _ OK _ _ _ K). split.
    - intros N. destruct (a_free a) as [|x l]; auto. exfalso. apply (N x). now left.
    - intros -> k [].
  Qed.

  Lemma u_create_grows st a H (h : whandler H) q x st' x' r : uinv cf st a ->
    li_create U H h q st x = Val (st', x', r) ->
    u_len st' = u_len st \/
    (u_len st' = u_len st + c_step cf /\ a_free a = [] /\ u_len st <= a_top a + 2 /\ uinv cf st' (a_create a) /\ exists f, r = Ok f).
  Proof.
    intros K E. pose proof E as E'. cbn in E. apply len_create in E. destruct E as [E|(E & F & RS & f & ->)]; [auto|].
    right. split; auto. pose proof K as [KR W].
    assert (FE : a_free a = []).
    { rewrite (ur_first _ _ _ KR), (ok_null _ (e_cf _ _ _ ENV)) in F. destruct (a_free a) as [|y l] eqn:FE; auto. cbn in F.
      pose proof (ur_free _ _ _ KR y). rewrite FE in *. specialize (H0 (or_introl eq_refl)). lia. }
    split; auto. rewrite (ur_alloc _ _ _ KR) in RS. pose proof (ur_res2 _ _ _ KR). split; [lia|]. split; [|eauto].
    pose proof ENV as (CF & _ & LOK). cbn in E'.
    destruct (u_create_ok cf CF lops LOK st a q K) as [(_ & _ & _ & _ & _ & _ & P)|[[_ P]|[(_ & _ & _ & _ & P)|(_ & st2 & K' & C)]]].
    - rewrite P in E'. discriminate.
    - rewrite P in E'. discriminate.
    - rewrite P in E'. discriminate.
    - rewrite C in E'. injection E' as <- _ _. auto.
  Qed.

  Lemma u_trace_inv l p : u_trace cf tops lops l -> at_most U l p ->
    exists st l' a, l = st :: l' /\ uinv cf st a /\ a_top a <= p /\ u_len st <= p + 1 + c_step cf.
  Proof.
    intros T. induction T as [st HS|st st' l T IH HS]; intros AM.
    - exists st, [], a_empty. split; auto. split; [now apply (u_start_inv _ _ _ ENV)|]. split; [cbn; lia|].
      destruct HS as (orc & E). apply len_open in E. cbn in E. lia.
    - destruct (IH (at_most_tl _ _ _ _ _ AM)) as (st0 & l' & a & E0 & K & TP & LN). injection E0 as <- <-.
      destruct (step_top cf _ _ U (uinv cf) OK (u_reopen cf tops lops) (fun st i _ _ => u_okc cf tops lops st i) (u_okc cf tops lops) (fun _ _ => True)) with (st := st) (st' := st') (a := a) as (a' & K' & TP').
      + intros. eapply u_reopen_inv; eauto.
      + intros st1 a1 i s t K1 M [C|C]; [apply (ob_none cf _ _ _ OK _ _ _ K1) in C; contradiction|].
        apply (ob_sep cf _ _ _ OK _ _ _ K1) in C. exact C.
      + intros st1 a1 i K1 M [C|C]; [apply (ob_none cf _ _ _ OK _ _ _ K1) in C; contradiction|].
        apply (ob_sep cf _ _ _ OK _ _ _ K1) in C. exact C.
      + intros. eapply u_create_pres; eauto.
      + exact K.
      + exact HS.
      + pose proof (AM st' _ (or_introl eq_refl) (u_count0 _ _ K')) as CN.
        pose proof (len_alinks_split _ (lo_wf _ _ _ _ OK _ _ K')) as SP.
        assert (P' : a_top a' <= p).
        { destruct TP' as [TP'|(F & _ & _)]; [lia|]. rewrite F in SP. cbn [length] in SP. lia. }
        exists st', (st :: l), a'. split; auto. split; auto. split; auto.
        destruct HS as [H h q x x' r E C|H h q ch i s t x x' r Q1 Q2 Q3 O E|H h q i x x' r Q O E|(_ & orc & E)].
        * destruct (u_create_grows _ _ _ _ _ _ _ _ _ K E) as [E'|(E' & F & RS & K2 & _)]; [lia|].
          destruct K' as [KR' _]. destruct K2 as [KR2 _].
          pose proof (ur_alloc _ _ _ KR') as A1. pose proof (ur_alloc _ _ _ KR2) as A2.
          unfold a_create in A2. rewrite F in A2. cbn [a_top] in A2. lia.
        * apply len_update in E. lia.
        * apply len_delete in E. lia.
        * apply len_open in E. pose proof K as [KR _]. pose proof (ur_alloc _ _ _ KR) as HA.
          change (h_alloc (u_persist st orc)) with (h_alloc st) in E. lia.
  Qed.

  (** The memory grows only in a creation that succeeds, by one step, and only if there
      is no hole and at most one cell besides the header is unused. *)
  Lemma g_unit_create st d H (h : whandler H) q x st' x' r : u_hist cf tops lops st d ->
    li_create U H h q st x = Val (st', x', r) ->
    u_len st' = u_len st \/
    (u_len st' = u_len st + c_step cf /\ (exists f, r = Ok f) /\ no_hole U st /\
     exists n, li_count U st [] = Val n /\ u_len st <= n + 2).
  Proof.
    intros HH E. destruct (u_hist_inv _ _ _ ENV _ _ HH) as (a & K & _).
    destruct (u_create_grows _ _ _ _ _ _ _ _ _ K E) as [E'|(E' & F & RS & K2 & f)]; [auto|].
    right. split; auto. split; auto. split; [now apply (u_nohole _ _ K)|].
    exists (N.of_nat (length (alinks a))). split; [now apply u_count0|].
    pose proof (len_alinks_split _ (lo_wf _ _ _ _ OK _ _ K)) as SP. rewrite F in SP. cbn [length] in SP. lia.
  Qed.

  (** Updates and deletions never change the size of the memory. *)
  Lemma g_unit_others st H (h : whandler H) q ch x st' x' r :
    li_update U H h q ch st x = Val (st', x', r) \/ li_delete U H h q st x = Val (st', x', r) -> u_len st' = u_len st.
  Proof. intros [E|E]; cbn in E; [apply len_update in E|apply len_delete in E]; exact E. Qed.

  (** The memory is bounded by the largest number of links there were at any one time,
      however many were created. *)
  Lemma g_unit_bound st l p : u_trace cf tops lops (st :: l) -> at_most U (st :: l) p ->
    u_len st <= p + 1 + c_step cf.
  Proof. intros T A. destruct (u_trace_inv _ _ T A) as (st0 & l' & a & E & _ & _ & L). now injection E as <- <-. Qed.

  Lemma g_unit_traces st d : u_hist cf tops lops st d -> exists l, u_trace cf tops lops (st :: l).
  Proof.
    induction 1 as [st S0|st d H h q x st' x' r HH (l & IH) E|st d H h q ch i s t x st' x' r HH (l & IH) Q1 Q2 Q3 O E
      |st d H h q i x st' x' f HH (l & IH) Q O E|st d H h q i x st' x' e HH (l & IH) Q O E|st d st' HH (l & IH) RE].
    - exists []. now apply trace_start.
    - exists (st :: l). apply trace_step; auto. eapply step_create; eauto.
    - exists (st :: l). apply trace_step; auto. eapply step_update; eauto.
    - exists (st :: l). apply trace_step; auto. eapply step_delete; eauto.
    - exists (st :: l). apply trace_step; auto. eapply step_delete; eauto.
    - exists (st :: l). apply trace_step; auto. now apply step_reopen.
  Qed.
End UnitMem.

(** ** C59, the two-memory store *)
Section SplitMem.
  Variables (cf : cfg) (tops : tree_ops) (lops : list_ops).
  Hypothesis ENV : unit_env cf tops lops.
  Notation SL := (split_links cf tops lops).
  Let OK := f_ok _ _ _ ENV.

  Lemma s_count0 st a : srep cf st a -> li_count SL st [] = Val (N.of_nat (length (alinks a))).
  Proof.
    intros K. apply (count_R0 cf _ SL _ OK); auto. intros st0 a0 K0. cbn [sp_query split_spec]. split; [exact I|exact I].
  Qed.

  Lemma s_create_grows st a H (h : whandler H) q x st' x' r : srep cf st a ->
    li_create SL H h q st x = Val (st', x', r) ->
    ssize st' = ssize st \/
    (ssize st' = (s_dcap st + c_step cf, s_dcap st + c_step cf, s_ilen st + c_step cf) /\ a_free a = [] /\
     s_ilen st <= a_top a + 2 /\ sh_alloc st' = a_top a + 1 /\ exists f, r = Ok f).
  Proof.
    intros K E. pose proof E as E'. cbn in E. apply sz_create in E; [|apply K]. destruct E as [E|(E & F & RS & f & ->)]; [auto|].
    right. split; auto. pose proof K as [(KR & W & V) _].
    assert (FE : a_free a = []).
    { rewrite (sm_first _ _ _ _ _ KR), (ok_null _ (f_cf _ _ _ ENV)) in F. destruct (a_free a) as [|y l] eqn:FE; auto. cbn in F.
      assert (Y : In y (a_free a)) by (rewrite FE; now left). apply (wf_free _ W) in Y. lia. }
    split; auto. rewrite (sm_alloc _ _ _ _ _ KR) in RS. pose proof (sm_res2 _ _ _ _ _ KR). split; [lia|]. split; [|eauto].
    pose proof ENV as (CF & _ & LOK). cbn in E'.
    destruct (s_create_ok cf CF tops lops LOK st a q K) as
      [(_ & _ & _ & _ & P)|[[_ P]|[(_ & _ & st2 & K' & P)|(_ & st2 & K' & O & C)]]].
    - rewrite P in E'. discriminate.
    - rewrite P in E'. discriminate.
    - rewrite P in E'. discriminate.
    - rewrite C in E'. injection E' as <- _ _. rewrite (sm_alloc _ _ _ _ _ K'). unfold a_create. now rewrite FE.
  Qed.

  Lemma s_capacity_le n : s_capacity cf n <= N.max n (N.max (c_page cf) (c_step cf)) + c_step cf.
  Proof.
    pose proof (ok_step _ (f_cf _ _ _ ENV)). unfold s_capacity, s_align.
    replace (N.max (N.max n (c_page cf)) (c_step cf)) with (N.max n (N.max (c_page cf) (c_step cf))) by lia.
    set (m := N.max n _). destruct (N.eqb_spec (m mod c_step cf) 0); [lia|].
    assert (D : m = c_step cf * (m / c_step cf) + m mod c_step cf) by (apply N.div_mod; lia).
    rewrite (N.mul_comm (m / c_step cf)). apply N.add_le_mono_r. rewrite D at 2. apply N.le_add_r.
  Qed.

  Lemma s_trace_inv l p : s_trace cf tops lops l -> at_most SL l p ->
    exists st l' a, l = st :: l' /\ srep cf st a /\ a_top a <= p /\ s_dcap st = s_ilen st /\
      s_ilen st <= N.max (p + 1) (N.max (c_page cf) (c_step cf)) + c_step cf.
  Proof.
    intros T. induction T as [st HS|st st' l T IH HS]; intros AM.
    - exists st, [], a_empty. split; auto. split; [now apply (s_start_inv _ _ _ ENV)|]. split; [cbn; lia|].
      destruct HS as (orc & B & E). apply sz_open in E. injection E as E1 E2 E3.
      pose proof (s_capacity_le (sh_alloc (s_blank orc))). cbn in H. split; [congruence|]. rewrite E3. cbn. lia.
    - destruct (IH (at_most_tl _ _ _ _ _ AM)) as (st0 & l' & a & E0 & K & TP & EQ & LN). injection E0 as <- <-.
      destruct (step_top cf _ _ SL (srep cf) OK (s_reopen cf tops lops) (s_oku SL) (s_okd SL) (s_okc SL)) with (st := st) (st' := st') (a := a) as (a' & K' & TP').
      + intros. eapply s_reopen_inv; eauto.
      + intros. eapply ob_oku; eauto.
      + intros. eapply ob_okd; eauto.
      + intros. eapply s_create_pres; eauto.
      + exact K.
      + exact HS.
      + pose proof (AM st' _ (or_introl eq_refl) (s_count0 _ _ K')) as CN.
        pose proof (len_alinks_split _ (lo_wf _ _ _ _ OK _ _ K')) as SP.
        assert (P' : a_top a' <= p).
        { destruct TP' as [TP'|(F & _ & _)]; [lia|]. rewrite F in SP. cbn [length] in SP. lia. }
        exists st', (st :: l), a'. split; auto. split; auto. split; auto.
        destruct HS as [H h q x x' r E C|H h q ch i s t x x' r Q1 Q2 Q3 O E|H h q i x x' r Q O E|(_ & orc & B & E)].
        * destruct (s_create_grows _ _ _ _ _ _ _ _ _ K E) as [E'|(E' & F & RS & HA & _)]; injection E' as E1 E2 E3.
          -- rewrite E1, E3. auto.
          -- split; [lia|]. destruct K' as [(KR' & _) _]. pose proof (sm_alloc _ _ _ _ _ KR'). lia.
        * apply sz_update in E. injection E as E1 E2 E3. rewrite E1, E3. auto.
        * apply sz_delete in E. injection E as E1 E2 E3. rewrite E1, E3. auto.
        * apply sz_open in E. destruct K as [(KR & _) _]. pose proof (sm_alloc _ _ _ _ _ KR) as HA.
          change (sh_alloc (s_persist st orc)) with (sh_alloc st) in E. rewrite HA in E. cbv zeta in E.
          injection E as E1 E2 E3. split; [congruence|]. rewrite E3.
          eapply N.le_trans; [apply s_capacity_le|]. lia.
  Qed.

  (** The memories grow only in a creation that succeeds, each by one step, and only if
      there is no hole and at most one cell of the index memory besides the header is
      unused. *)
  Lemma g_split_create st d H (h : whandler H) q x st' x' r : s_hist cf tops lops st d ->
    li_create SL H h q st x = Val (st', x', r) ->
    (s_dcap st' = s_dcap st /\ s_dlen st' = s_dlen st /\ s_ilen st' = s_ilen st) \/
    (s_dcap st' = s_dcap st + c_step cf /\ s_dlen st' = s_dcap st' /\ s_ilen st' = s_ilen st + c_step cf /\
     (exists f, r = Ok f) /\ no_hole SL st /\
     exists n, li_count SL st [] = Val n /\ s_ilen st <= n + 2).
  Proof.
    intros HH E. destruct (s_hist_inv _ _ _ ENV _ _ HH) as (a & K & _).
    destruct (s_create_grows _ _ _ _ _ _ _ _ _ K E) as [E'|(E' & F & RS & K2 & f)]; injection E' as E1 E2 E3; [auto|].
    right. split; auto. split; [congruence|]. split; auto. split; auto. split; [now apply (ob_nohole _ _ _ ENV _ _ K)|].
    exists (N.of_nat (length (alinks a))). split; [now apply s_count0|].
    pose proof (len_alinks_split _ (lo_wf _ _ _ _ OK _ _ K)) as SP. rewrite F in SP. cbn [length] in SP. lia.
  Qed.

  Lemma g_split_others st H (h : whandler H) q ch x st' x' r :
    li_update SL H h q ch st x = Val (st', x', r) \/ li_delete SL H h q st x = Val (st', x', r) ->
    s_dcap st' = s_dcap st /\ s_dlen st' = s_dlen st /\ s_ilen st' = s_ilen st.
  Proof. intros [E|E]; [apply sz_update in E|apply sz_delete in E]; injection E as E1 E2 E3; auto. Qed.

  Lemma g_split_bound st l p : s_trace cf tops lops (st :: l) -> at_most SL (st :: l) p ->
    s_dcap st = s_ilen st /\ s_ilen st <= N.max (p + 1) (N.max (c_page cf) (c_step cf)) + c_step cf.
  Proof. intros T A. destruct (s_trace_inv _ _ T A) as (st0 & l' & a & E & _ & _ & L). now injection E as <- <-. Qed.

  Lemma g_split_traces st d : s_hist cf tops lops st d -> exists l, s_trace cf tops lops (st :: l).
  Proof.
    induction 1 as [st S0|st d H h q x st' x' r HH (l & IH) E C|st d H h q ch i s t x st' x' r HH (l & IH) Q1 Q2 Q3 O E
      |st d H h q i x st' x' f HH (l & IH) Q O E|st d H h q i x st' x' e HH (l & IH) Q O E|st d st' HH (l & IH) RE].
    - exists []. now apply trace_start.
    - exists (st :: l). apply trace_step; auto. eapply step_create; eauto.
    - exists (st :: l). apply trace_step; auto. eapply step_update; eauto.
    - exists (st :: l). apply trace_step; auto. eapply step_delete; eauto.
    - exists (st :: l). apply trace_step; auto. eapply step_delete; eauto.
    - exists (st :: l). apply trace_step; auto. now apply step_reopen.
  Qed.
End SplitMem.

(** ** Examples *)
Section ExTrace.
  Variables (cf : cfg) (tops : tree_ops) (lops : list_ops).
  Hypothesis ENV : unit_env cf tops lops.
  Notation U := (unit_links cf tops lops).
  Notation SL := (split_links cf tops lops).

  Lemma ex_ustep st a c st' : uinv cf st a -> acheck1 a c = true -> run1 U c st = Some st' ->
    step U (u_reopen cf tops lops) (fun st i _ _ => u_okc cf tops lops st i) (u_okc cf tops lops) (fun _ _ => True) st st'.
  Proof.
    pose proof (e_ok _ _ _ ENV) as IOK. intros K A1 E1. pose proof (lo_wf _ _ _ _ IOK _ _ K) as W.
    unfold run1 in E1. destruct c as [|i s t|i].
    - destruct (li_create U unit cont [] st tt) as [[[st2 u] [f|e]]| | |] eqn:EC; try discriminate.
      injection E1 as ->. eapply step_create; eauto.
    - destruct (detb_ok _ _ W A1) as [M D].
      destruct (li_update U unit cont [i] [i; s; t] st tt) as [[[st2 u] [f|e]]| | |] eqn:EC; try discriminate.
      injection E1 as ->. eapply step_update; [| | | |exact EC]; try reflexivity.
      right. now apply (ob_sep cf _ _ _ IOK _ _ _ K).
    - destruct (detb_ok _ _ W A1) as [M D].
      destruct (li_delete U unit cont [i] st tt) as [[[st2 u] [f|e]]| | |] eqn:EC; try discriminate.
      injection E1 as ->. eapply step_delete; [| |exact EC]; try reflexivity.
      right. now apply (ob_sep cf _ _ _ IOK _ _ _ K).
  Qed.
  Lemma ex_sstep st a c st' : srep cf st a -> srep cf st' (astep a c) -> scheck1 a c = true -> run1 SL c st = Some st' ->
    step SL (s_reopen cf tops lops) (s_oku SL) (s_okd SL) (s_okc SL) st st'.
  Proof.
    pose proof (f_ok _ _ _ ENV) as IOK. intros K K1 A1 E1. pose proof (lo_wf _ _ _ _ IOK _ _ K) as W.
    unfold run1 in E1. destruct c as [|i s t|i].
    - destruct (li_create SL unit cont [] st tt) as [[[st2 u] [f|e]]| | |] eqn:EC; try discriminate.
      injection E1 as ->. eapply step_create; eauto. cbn [astep] in K1.
      intros i N1 N2. apply (ob_none cf _ _ _ IOK _ _ _ K) in N1. apply (ob_linked cf _ _ _ IOK _ _ _ K1) in N2.
      apply (ob_unref cf tops lops ENV _ _ _ K). rewrite SplitWrites.a_create_map in N2.
      destruct (N.eq_dec i (a_next a)) as [->|NE]; [now apply unrefb_ok|]. rewrite upd_other in N2 by auto. congruence.
    - destruct (scheck_upd _ _ _ _ W A1) as [M SU].
      destruct (li_update SL unit cont [i] [i; s; t] st tt) as [[[st2 u] [f|e]]| | |] eqn:EC; try discriminate.
      injection E1 as ->. eapply step_update; [| | | |exact EC]; try reflexivity.
      apply (ob_oku cf tops lops ENV _ _ _ _ _ K); auto.
    - destruct (scheck_del _ _ W A1) as (s & t & EM & SD).
      destruct (li_delete SL unit cont [i] st tt) as [[[st2 u] [f|e]]| | |] eqn:EC; try discriminate.
      injection E1 as ->. eapply step_delete; [| |exact EC]; try reflexivity.
      apply (ob_okd cf tops lops ENV _ _ _ K); auto. congruence.
  Qed.
End ExTrace.

(** The states a list of commands goes through. *)
Fixpoint states {S} (I : LinksI S) (l : list cmd) (acc : list S) (st : S) : list S :=
  match l with
  | [] => st :: acc
  | c :: l' => match run1 I c st with Some st' => states I l' (st :: acc) st' | None => [] end
  end.
Definition ran {S} (L : list S) : bool := match L with [] => false | _ => true end.
Definition counts {S} (I : LinksI S) (p : N) (L : list S) : bool :=
  forallb (fun st => match li_count I st [] with Val n => n <=? p | _ => false end) L.

Lemma counts_ok S (I : LinksI S) p L : counts I p L = true -> at_most I L p.
Proof.
  intros C st n K E. unfold counts in C. rewrite forallb_forall in C. specialize (C _ K). rewrite E in C. now apply N.leb_le.
Qed.

Lemma ex_utrace l : forall st a acc d, u_trace ex_cf ref_tree_ops ref_list_ops (st :: acc) -> u_hist ex_cf ref_tree_ops ref_list_ops st d ->
  uinv ex_cf st a -> acheck a l = true -> ran (states ex_U l acc st) = true -> u_trace ex_cf ref_tree_ops ref_list_ops (states ex_U l acc st).
Proof.
  induction l as [|c l IH]; intros st a acc d T HH K A E; cbn [states] in *; auto.
  cbn [acheck] in A. apply andb_true_iff in A as [A1 A2].
  destruct (run1 ex_U c st) as [st1|] eqn:E1; [|discriminate].
  destruct (run_ok ex_cf ref_tree_ops ref_list_ops ex_env [c] st a d st1 HH K) as (d1 & HH1 & K1).
  { cbn. now rewrite A1. }
  { cbn [run]. change (unit_links ex_cf ref_tree_ops ref_list_ops) with ex_U. now rewrite E1. }
  apply (IH st1 (astep a c) (st :: acc) d1); auto. apply trace_step; auto. eapply (ex_ustep _ _ _ ex_env); eauto.
Qed.
Lemma ex_strace l : forall st a acc d, s_trace ex_cf ref_tree_ops ref_list_ops (st :: acc) -> s_hist ex_cf ref_tree_ops ref_list_ops st d ->
  srep ex_cf st a -> scheck a l = true -> ran (states ex_S l acc st) = true -> s_trace ex_cf ref_tree_ops ref_list_ops (states ex_S l acc st).
Proof.
  induction l as [|c l IH]; intros st a acc d T HH K A E; cbn [states] in *; auto.
  cbn [scheck] in A. apply andb_true_iff in A as [A1 A2].
  destruct (run1 ex_S c st) as [st1|] eqn:E1; [|discriminate].
  destruct (srun_ok ex_cf ref_tree_ops ref_list_ops ex_env [c] st a d st1 HH K) as (d1 & HH1 & K1).
  { cbn [scheck]. now rewrite A1. }
  { cbn [run]. change (split_links ex_cf ref_tree_ops ref_list_ops) with ex_S. now rewrite E1. }
  apply (IH st1 (astep a c) (st :: acc) d1); auto. apply trace_step; auto. eapply (ex_sstep _ _ _ ex_env); eauto.
Qed.

(** Twenty creations with at most two links at a time, and seven links. *)
Definition ex_cycle : list cmd := concat (repeat [Cr; Cr; Up 1 1 2; Up 2 2 1; De 1; De 2] 10).
Definition ex_seven : list cmd := repeat Cr 7.

Lemma ex_u_start : u_start ex_cf ex_start.
Proof. exists (fun _ _ => true). unfold ex_start. vm_compute. reflexivity. Qed.

(** * C59 *)
(** The memory grows only in a creation that succeeds, by one step, and only if there
    is no hole and at most one cell besides the header is unused. *)
Lemma L_C59_unit_create :
  forall cf tops lops st d H (h : whandler H) q x st' x' r,
  let U := unit_links cf tops lops in
  unit_env cf tops lops -> u_hist cf tops lops st d ->
  li_create U H h q st x = Val (st', x', r) ->
  u_len st' = u_len st \/
  (u_len st' = u_len st + c_step cf /\ (exists f, r = Ok f) /\ no_hole U st /\
   exists n, li_count U st [] = Val n /\ u_len st <= n + 2).
Proof. intros. eapply g_unit_create; eauto. Qed.

(** Updates and deletions never change the size of the memory, whatever the state. *)
Lemma L_C59_unit_others :
  forall cf tops lops st H (h : whandler H) q ch x st' x' r,
  let U := unit_links cf tops lops in
  li_update U H h q ch st x = Val (st', x', r) \/ li_delete U H h q st x = Val (st', x', r) ->
  u_len st' = u_len st.
Proof. exact g_unit_others. Qed.

(** Every history goes through some states ... *)
Lemma L_C59_unit_traces :
  forall cf tops lops st d, u_hist cf tops lops st d -> exists l, u_trace cf tops lops (st :: l).
Proof. exact g_unit_traces. Qed.

(** ... and the memory in the last of them is bounded by the largest number of links in
    any of them, however many were created. *)
Lemma L_C59_unit_bound :
  forall cf tops lops st l p,
  let U := unit_links cf tops lops in
  unit_env cf tops lops -> u_trace cf tops lops (st :: l) -> at_most U (st :: l) p ->
  u_len st <= p + 1 + c_step cf.
Proof. intros. eapply g_unit_bound; eauto. Qed.

Lemma L_C59_split_create :
  forall cf tops lops st d H (h : whandler H) q x st' x' r,
  let SL := split_links cf tops lops in
  unit_env cf tops lops -> s_hist cf tops lops st d ->
  li_create SL H h q st x = Val (st', x', r) ->
  (s_dcap st' = s_dcap st /\ s_dlen st' = s_dlen st /\ s_ilen st' = s_ilen st) \/
  (s_dcap st' = s_dcap st + c_step cf /\ s_dlen st' = s_dcap st' /\ s_ilen st' = s_ilen st + c_step cf /\
   (exists f, r = Ok f) /\ no_hole SL st /\
   exists n, li_count SL st [] = Val n /\ s_ilen st <= n + 2).
Proof. intros. eapply g_split_create; eauto. Qed.

Lemma L_C59_split_others :
  forall cf tops lops st H (h : whandler H) q ch x st' x' r,
  let SL := split_links cf tops lops in
  li_update SL H h q ch st x = Val (st', x', r) \/ li_delete SL H h q st x = Val (st', x', r) ->
  s_dcap st' = s_dcap st /\ s_dlen st' = s_dlen st /\ s_ilen st' = s_ilen st.
Proof. exact g_split_others. Qed.

Lemma L_C59_split_traces :
  forall cf tops lops st d, s_hist cf tops lops st d -> exists l, s_trace cf tops lops (st :: l).
Proof. exact g_split_traces. Qed.

Lemma L_C59_split_bound :
  forall cf tops lops st l p,
  let SL := split_links cf tops lops in
  unit_env cf tops lops -> s_trace cf tops lops (st :: l) -> at_most SL (st :: l) p ->
  s_dcap st = s_ilen st /\ s_ilen st <= N.max (p + 1) (N.max (c_page cf) (c_step cf)) + c_step cf.
Proof. intros. eapply g_split_bound; eauto. Qed.

(** Twenty creations, never more than two links: the memory keeps its first size; the bound
    is reached by seven links (the seventh creation grows the memory although a cell is
    left). *)
Lemma L_C59_nonvacuous :
  (exists st l, u_trace ex_cf ref_tree_ops ref_list_ops (st :: l) /\ at_most ex_U (st :: l) 2 /\ length l = 60%nat /\ u_len st = 8) /\
  (exists st l, u_trace ex_cf ref_tree_ops ref_list_ops (st :: l) /\ at_most ex_U (st :: l) 7 /\ u_len st = 7 + 1 + c_step ex_cf) /\
  (exists st l, s_trace ex_cf ref_tree_ops ref_list_ops (st :: l) /\ at_most ex_S (st :: l) 2 /\ length l = 60%nat /\ s_ilen st = 8) /\
  (exists st l, s_trace ex_cf ref_tree_ops ref_list_ops (st :: l) /\ at_most ex_S (st :: l) 7 /\ s_ilen st = 7 + 1 + c_step ex_cf).
Proof.
  assert (TU : forall l p, acheck a_empty l = true -> ran (states ex_U l [] ex_start) = true -> counts ex_U p (states ex_U l [] ex_start) = true ->
    u_trace ex_cf ref_tree_ops ref_list_ops (states ex_U l [] ex_start) /\ at_most ex_U (states ex_U l [] ex_start) p).
  { intros l p A E C. split; [|now apply counts_ok]. apply (ex_utrace l ex_start a_empty [] []); auto.
    - apply trace_start. exact ex_u_start.
    - apply hist_start. exact ex_u_start.
    - exact (u_start_inv _ _ _ ex_env _ ex_u_start). }
  assert (TS : forall l p, scheck a_empty l = true -> ran (states ex_S l [] ex_sstart) = true -> counts ex_S p (states ex_S l [] ex_sstart) = true ->
    s_trace ex_cf ref_tree_ops ref_list_ops (states ex_S l [] ex_sstart) /\ at_most ex_S (states ex_S l [] ex_sstart) p).
  { intros l p A E C. split; [|now apply counts_ok]. apply (ex_strace l ex_sstart a_empty [] []); auto.
    - apply trace_start. exact ex_s_start.
    - apply histc_start. exact ex_s_start.
    - exact (s_start_inv _ _ _ ex_env _ ex_s_start). }
  split; [|split; [|split]].
  - destruct (TU ex_cycle 2) as [T A]; [vm_compute; reflexivity..|].
    assert (L : length (states ex_U ex_cycle [] ex_start) = 61%nat) by (vm_compute; reflexivity).
    assert (M : match states ex_U ex_cycle [] ex_start with st :: _ => u_len st = 8 | [] => False end) by (vm_compute; reflexivity).
    destruct (states ex_U ex_cycle [] ex_start) as [|st l]; [contradiction|]. exists st, l. cbn [length] in L. repeat split; auto.
  - destruct (TU ex_seven 7) as [T A]; [vm_compute; reflexivity..|].
    assert (M : match states ex_U ex_seven [] ex_start with st :: _ => u_len st = 7 + 1 + c_step ex_cf | [] => False end) by (vm_compute; reflexivity).
    destruct (states ex_U ex_seven [] ex_start) as [|st l]; [contradiction|]. exists st, l. repeat split; auto.
  - destruct (TS ex_cycle 2) as [T A]; [vm_compute; reflexivity..|].
    assert (L : length (states ex_S ex_cycle [] ex_sstart) = 61%nat) by (vm_compute; reflexivity).
    assert (M : match states ex_S ex_cycle [] ex_sstart with st :: _ => s_ilen st = 8 | [] => False end) by (vm_compute; reflexivity).
    destruct (states ex_S ex_cycle [] ex_sstart) as [|st l]; [contradiction|]. exists st, l. cbn [length] in L. repeat split; auto.
  - destruct (TS ex_seven 7) as [T A]; [vm_compute; reflexivity..|].
    assert (M : match states ex_S ex_seven [] ex_sstart with st :: _ => s_ilen st = 7 + 1 + c_step ex_cf | [] => False end) by (vm_compute; reflexivity).
    destruct (states ex_S ex_seven [] ex_sstart) as [|st l]; [contradiction|]. exists st, l. repeat split; auto.
Qed.
