(** Stopping in the middle of an operation of the two-memory store: update_links
    (split/store.rs:740-810), create_links (691-734) and delete_links (812-849). *)
From Coq Require Import NArith List Bool Lia Permutation.
From Verif Require Import Base Trees Lists Spec Iface UnitModel UnitInv UnitOps LinkModel SplitModel Forest
  SplitInv SplitReads SplitOps SplitWrites SplitLinks Doublets DoubletsOK Obs Hist Claims UnitHist TreeImpl SplitHist.
From Verif Require Crash.
Import ListNotations.
Open Scope N_scope.

(** The four tree operations of update_links: 752-764, 766-775, 784-796, 798-807. *)
Definition d_source (tops : tree_ops) (st : sst) (i os : N) : out sst :=
  s_when (negb (os =? 0)) (fun st =>
    let* v := s_is_virtual st os in if v then s_detach_es tops st i else s_detach_is tops st os i) st.
Definition d_target (tops : tree_ops) (st : sst) (i ot : N) : out sst :=
  s_when (negb (ot =? 0)) (fun st =>
    let* v := s_is_virtual st ot in if v then s_detach_et tops st i else s_detach_it tops st ot i) st.
Definition t_source (tops : tree_ops) (vs : bool) (st : sst) (i s : N) : out sst :=
  s_when (negb (s =? 0)) (fun st => if vs then s_attach_es tops st i else s_attach_is tops st s i) st.
Definition t_target (tops : tree_ops) (vt : bool) (st : sst) (i t : N) : out sst :=
  s_when (negb (t =? 0)) (fun st => if vt then s_attach_et tops st i else s_attach_it tops st t i) st.

(** The memory when the process stops inside update_links.  0: before the first write; 1, 2:
    after the detaches (764, 775); 3: between the two field writes (780); 4: after them
    (781); 5: after the first attach (796); 6: at the end.  The writes inside one tree
    operation are those of the external crate and are not distinguished. *)
Definition s_stop (tops : tree_ops) (st : sst) (i os ot s t : N) (k : nat) : out sst :=
  match k with O => Val st | _ =>
  let* st1 := d_source tops st i os in
  match k with 1%nat => Val st1 | _ =>
  let* st2 := d_target tops st1 i ot in
  match k with 2%nat => Val st2 | _ =>
  let* vs := s_is_virtual st2 s in
  let* vt := s_is_virtual st2 t in
  let* p := s_get_data st2 i in
  match k with 3%nat => Val (s_set_data st2 (upd (s_data st2) i (s, snd p))) | _ =>
  let st3 := s_set_data st2 (upd (s_data st2) i (s, t)) in
  match k with 4%nat => Val st3 | _ =>
  let* st4 := t_source tops vs st3 i s in
  match k with 5%nat => Val st4 | _ => t_target tops vt st4 i t end end end end end end.

Lemma s_stop_relink tops st i os ot s t : s_stop tops st i os ot s t 6 = s_relink tops st i os ot s t.
Proof. reflexivity. Qed.

(** The fields of the link at each of these points. *)
Definition s_fields (k : nat) (os ot s t : N) : N * N :=
  match k with 0%nat | 1%nat | 2%nat => (os, ot) | 3%nat => (s, ot) | _ => (s, t) end.
(** The points at which the link has a source but is in no tree of targets. *)
Definition s_detached (k : nat) (os s : N) : Prop :=
  match k with 2%nat => os <> 0 | 3%nat | 4%nat | 5%nat => s <> 0 | _ => False end.

(** The loop bodies of resolve_danglind_internal (494-495, 505-506). *)
Definition move_s (tops : tree_ops) (i : N) (x : N) (st : sst) : out sst :=
  let* st1 := s_detach_is tops st i x in s_attach_es tops st1 x.
Definition move_t (tops : tree_ops) (i : N) (x : N) (st : sst) : out sst :=
  let* st1 := s_detach_it tops st i x in s_attach_et tops st1 x.
(** Whom the loops visit (489-491, 499-502). *)
Definition users_s (cf : cfg) (st : sst) (i : N) : out (list link) :=
  let* l := s_each_iter cf st [c_any cf; i; c_any cf] in Val (filter (fun k => negb (l_index k =? i)) l).
Definition users_t (cf : cfg) (st : sst) (i : N) : out (list link) :=
  let* l := s_each_iter cf st [c_any cf; c_any cf; i] in
  Val (filter (fun k => negb (link_is_full k)) (filter (fun k => negb (l_index k =? i)) l)).

(** Where the process stopped inside resolve_danglind_internal: after [n] rounds of the
    first loop; in the next round, between the detach and the attach of [x]; the same for
    the second loop. *)
Inductive res_point := InSources (n : nat) | MidSource (n : nat) (x : N) | InTargets (n : nat) | MidTarget (n : nat) (x : N).
Definition resolve_at (cf : cfg) (tops : tree_ops) (st : sst) (i : N) (p : res_point) (st' : sst) : Prop :=
  exists u, users_s cf st i = Val u /\
  match p with
  | InSources n => s_for (firstn n u) (move_s tops i) st = Val st'
  | MidSource n x => exists st1 k, s_for (firstn n u) (move_s tops i) st = Val st1 /\
      nth_error u n = Some k /\ x = l_index k /\ s_detach_is tops st1 i x = Val st'
  | InTargets n => exists st0 w, s_for u (move_s tops i) st = Val st0 /\ users_t cf st0 i = Val w /\
      s_for (firstn n w) (move_t tops i) st0 = Val st'
  | MidTarget n x => exists st0 w, s_for u (move_s tops i) st = Val st0 /\ users_t cf st0 i = Val w /\
      exists st1 k, s_for (firstn n w) (move_t tops i) st0 = Val st1 /\
        nth_error w n = Some k /\ x = l_index k /\ s_detach_it tops st1 i x = Val st'
  end.

(** [n] complete rounds of the loop that lowers [allocated] past unused links (835-842). *)
Fixpoint s_trimmed (lops : list_ops) (n : nat) (st st' : sst) : Prop :=
  match n with
  | O => st' = st
  | S k => 0 < sh_alloc st /\ s_is_unused st (sh_alloc st) = Val true /\
      exists st1, s_unused_detach lops st (sh_alloc st) = Val st1 /\
        s_trimmed lops k (s_set_alloc st1 (sh_alloc st - 1)) st'
  end.

(** Where the process stopped inside delete_links. *)
Inductive sdel_point :=
| Resolving (p : res_point)   (* inside resolve_danglind_internal (820) *)
| Emptying (k : nat)          (* inside the update to (0, 0) (822) *)
| SListed                     (* after unused.attach_as_first (828) *)
| STrimming (n : nat)         (* allocated lowered (831-833), and [n] rounds of the loop done *)
| SDetaching (n : nat).       (* in the next round, between unused.detach (840) and the write of allocated (841) *)

Definition s_delete_at (cf : cfg) (tops : tree_ops) (lops : list_ops) (st : sst) (i os ot : N) (p : sdel_point) (st' : sst) : Prop :=
  match p with
  | Resolving r => resolve_at cf tops st i r st'
  | Emptying k => exists st0, s_resolve_internal cf tops st i = Val st0 /\ s_stop tops st0 i os ot 0 0 k = Val st'
  | SListed => exists st0 st1, s_resolve_internal cf tops st i = Val st0 /\ s_relink tops st0 i os ot 0 0 = Val st1 /\
      i < sh_alloc st1 /\ s_unused_attach lops st1 i = Val st'
  | STrimming n => exists st0 st1, s_resolve_internal cf tops st i = Val st0 /\ s_relink tops st0 i os ot 0 0 = Val st1 /\
      i = sh_alloc st1 /\ s_trimmed lops n (s_set_alloc st1 (sh_alloc st1 - 1)) st'
  | SDetaching n => exists st0 st1, s_resolve_internal cf tops st i = Val st0 /\ s_relink tops st0 i os ot 0 0 = Val st1 /\
      i = sh_alloc st1 /\ exists st2, s_trimmed lops n (s_set_alloc st1 (sh_alloc st1 - 1)) st2 /\
      0 < sh_alloc st2 /\ s_is_unused st2 (sh_alloc st2) = Val true /\ s_unused_detach lops st2 (sh_alloc st2) = Val st'
  end.

(** The memory when the process stops inside create_links: before the first write; after
    one or both of the allocations (706-713), which may also have failed; after the write of
    [reserved] (719); after the last write.  As long as nothing refers to the new index, the
    loops of resolve_danglind_external (728) have no rounds. *)
Inductive s_create_point (cf : cfg) (tops : tree_ops) (lops : list_ops) (st : sst) : sst -> Prop :=
| SP_before : s_create_point cf tops lops st st
| SP_alloc st1 b : s_alloc_mem st (s_dcap st + c_step cf) (s_ilen st + c_step cf) = (st1, b) -> s_create_point cf tops lops st st1
| SP_reserved st1 r : s_grow cf st = Val (st1, r) -> s_create_point cf tops lops st st1
| SP_done H (h : whandler H) q x st1 x1 r :
    s_create cf tops lops h q st x = Val (st1, x1, r) -> s_create_point cf tops lops st st1.

(** count and each agree on the number of links. *)
Definition s_agreed (cf : cfg) (st : sst) : Prop :=
  exists n, s_count cf st [] = Val n /\ s_each cf (fun m _ => (m + 1, Continue)) [] st 0 = Val (n, Continue).

(** What a memory shows in which the link [i] is hidden. *)
Definition without (a : astate) (i : N) : astate := mkA (a_top a) (a_free a) (upd (a_map a) i None).
(** [i] has a source and is in no tree of targets; all others are where they can be seen. *)
Definition hidden (a : astate) (tP : N -> place) (i : N) : Prop :=
  (exists s t, a_map a i = Some (s, t) /\ s <> 0) /\ tP i = Out /\
  forall v s t, v <> i -> a_map a v = Some (s, t) -> s = 0 \/ tP v <> Out.

Section SC.
  Variables (cf : cfg) (tops : tree_ops) (lops : list_ops).
  Hypothesis ENV : unit_env cf tops lops.
  Notation SL := (split_links cf tops lops).
  Let CF : cfg_ok cf := proj1 ENV.
  Let TOK : tree_ops_ok tops := proj1 (proj2 ENV).
  Let LOK : list_ops_ok lops := proj2 (proj2 ENV).

  (** ** Reading a memory with a hidden link *)
  Lemma hidden_unused st a sP tP i : smem cf st a sP tP -> hidden a tP i -> s_is_unused st i = Val true.
  Proof.
    intros R ((s & t & M & S0) & TO & _). destruct (sm_range cf _ _ _ _ _ _ R M) as [IR IF].
    unfold s_is_unused. rewrite (s_header_ok _ _ _ _ _ R). cbn [obind].
    rewrite (sm_alloc _ _ _ _ _ R), (sm_first _ _ _ _ _ R). pose proof (sm_len _ _ _ _ _ R) as HL.
    destruct (N.leb_spec i (a_top a)); [|lia]. cbn [andb].
    destruct (N.eqb_spec (hd 0 (a_free a)) i) as [E|E]; cbn [negb]; [reflexivity|].
    rewrite rd_ok by lia. cbn [obind]. rewrite (s_get_data_ok _ _ _ _ _ _ R) by lia. cbn [obind].
    rewrite (sm_data _ _ _ _ _ R _ _ M). cbn [fst].
    rewrite (fo_out _ _ _ _ _ _ (sm_tgt _ _ _ _ _ R) i) by (auto; lia). cbn [nz nd0 N.eqb].
    destruct (N.eqb_spec s 0); [contradiction|reflexivity].
  Qed.

  Lemma hidden_get st a sP tP i j : smem cf st a sP tP -> hidden a tP i ->
    s_get_link cf st j = Val (olink j (a_map (without a i) j)).
  Proof.
    intros R HID. pose proof (hidden_unused _ _ _ _ _ R HID) as HU. destruct HID as ((s0 & t0 & M0 & S0) & TO & OT).
    destruct (sm_range cf _ _ _ _ _ _ R M0) as [IR IF]. cbn [a_map without].
    unfold s_get_link, s_exists. rewrite (s_header_ok _ _ _ _ _ R). cbn [obind].
    rewrite (ok_istart _ CF), (sm_alloc _ _ _ _ _ R). destruct (N.eq_dec j i) as [->|NE].
    - rewrite upd_same. destruct (N.leb_spec 1 i); [|lia]. destruct (N.leb_spec i (a_top a)); [|lia]. cbn [andb].
      rewrite HU. reflexivity.
    - rewrite upd_other by auto.
      destruct (N.leb_spec 1 j); destruct (N.leb_spec j (a_top a)); cbn [andb obind];
        try (destruct (a_map a j) eqn:E; [destruct (sm_range cf _ _ _ _ _ _ R E); lia|reflexivity]).
      rewrite (s_is_unused_ok cf _ _ _ _ j R) by (lia || (intros s t E; eapply OT; eauto)). cbn [obind].
      destruct (a_map a j) as [[s t]|] eqn:E; cbn [negb obind]; [|reflexivity].
      pose proof (sm_len _ _ _ _ _ R). pose proof (sm_dlen _ _ _ _ _ R).
      unfold s_get_data_unchecked. rewrite (s_view_ok _ _ _ _ _ R). cbn [obind].
      rewrite rdu_ok by lia. cbn [obind]. rewrite (sm_data _ _ _ _ _ R _ _ E). reflexivity.
  Qed.

  Lemma hidden_each st a sP tP i H (h : rhandler H) x : smem cf st a sP tP -> hidden a tP i ->
    s_each cf h [] st x = Val (run_handler h (alinks (without a i)) x).
  Proof.
    intros R HID. unfold s_each, s_each_all. rewrite (s_header_ok _ _ _ _ _ R). cbn [obind].
    rewrite (sm_alloc _ _ _ _ _ R). unfold alinks. change (a_top (without a i)) with (a_top a).
    generalize (range1 (a_top a)). intros l. revert x. induction l as [|j l IH]; intros x; [reflexivity|].
    cbn [s_each_idx flat_map]. rewrite (hidden_get _ _ _ _ _ j R HID). cbn [obind].
    destruct (a_map (without a i) j) as [[y z]|]; cbn [olink app run_handler]; [|apply IH].
    destruct (h x (mkLink j y z)) as [x' []]; [apply IH|reflexivity].
  Qed.

  Lemma without_length a i : awf a -> a_map a i <> None -> length (alinks a) = (length (alinks (without a i)) + 1)%nat.
  Proof. exact (Crash.seen_length a i (1, 0) false). Qed.

  Lemma count_ok st a sP tP : smem cf st a sP tP -> s_count cf st [] = Val (N.of_nat (length (alinks a))).
  Proof.
    intros R. unfold s_count, s_total. rewrite (s_header_ok _ _ _ _ _ R). cbn [obind].
    rewrite (sm_alloc _ _ _ _ _ R), (sm_count _ _ _ _ _ R).
    assert (C : N.of_nat (length (alinks a)) + N.of_nat (length (a_free a)) = a_top a).
    { unfold alinks. rewrite alinks_length_gen.
      set (f := fun i => match a_map a i with Some _ => true | None => false end).
      assert (P : Permutation (a_free a) (filter (fun x => negb (f x)) (range1 (a_top a)))).
      { apply NoDup_Permutation.
        - exact (sm_nodup _ _ _ _ _ R).
        - apply NoDup_filter, nodup_range1.
        - intros i. rewrite filter_In, in_range1. unfold f. split.
          + intros K. split; [now apply (sm_free _ _ _ _ _ R)|]. now rewrite (sm_none _ _ _ _ _ i R).
          + intros [K1 K2]. destruct (a_map a i) eqn:E; [discriminate|].
            destruct (in_dec N.eq_dec i (a_free a)); auto. exfalso.
            assert (K : a_map a i <> None) by (apply (sm_dom _ _ _ _ _ R); auto). congruence. }
      rewrite (Permutation_length P).
      pose proof (filter_partition f (range1 (a_top a))) as Q. rewrite length_range1 in Q. lia. }
    rewrite csub_ok by lia. f_equal. lia.
  Qed.

  Lemma run_count L n : run_handler (fun m (_ : link) => (m + 1, Continue)) L n = (n + N.of_nat (length L), Continue).
  Proof. exact (Crash.run_count_visits L n). Qed.

  Lemma placed_agreed st a sP tP : smem cf st a sP tP -> all_placed a tP ->
    s_count cf st [] = Val (N.of_nat (length (alinks a))) /\
    s_each cf (fun m _ => (m + 1, Continue)) [] st 0 = Val (N.of_nat (length (alinks a)), Continue).
  Proof.
    intros R V. split; [eapply count_ok; eauto|]. unfold s_each. rewrite (s_each_all_ok cf CF _ _ _ _ _ _ _ R V).
    now rewrite run_count.
  Qed.
  Lemma hidden_disagree st a sP tP i : smem cf st a sP tP -> awf a -> hidden a tP i ->
    exists n, N.of_nat (length (alinks a)) = n + 1 /\ s_count cf st [] = Val (n + 1) /\
    s_each cf (fun m _ => (m + 1, Continue)) [] st 0 = Val (n, Continue).
  Proof.
    intros R W HID. exists (N.of_nat (length (alinks (without a i)))).
    assert (E : N.of_nat (length (alinks a)) = N.of_nat (length (alinks (without a i))) + 1).
    { rewrite (without_length a i W); [lia|]. destruct HID as ((s & t & M & _) & _). congruence. }
    split; auto. rewrite <- E. split; [eapply count_ok; eauto|]. rewrite (hidden_each _ _ _ _ _ _ _ _ R HID).
    now rewrite run_count.
  Qed.

  (** ** Opening the memories again *)
  Lemma reopen_smem st1 st a sP tP orc st2 : s_same_cells st1 st -> smem cf st a sP tP ->
    a_top a < s_capacity cf (a_top a) -> s_open cf (s_persist st1 orc) = Val (Ok st2) -> smem cf st2 a sP tP.
  Proof.
    intros SC R TL E. destruct (s_open_cond cf tops lops ENV _ _ E) as (T & O1 & O2).
    assert (HA : sh_alloc (s_persist st1 orc) = a_top a).
    { destruct SC as (_ & S2 & _). rewrite <- (sm_alloc _ _ _ _ _ R). exact (S2 0). }
    rewrite HA in T, O2.
    destruct (s_open_smem cf CF (s_persist st1 orc) st a sP tP) as (st3 & E3 & R3 & _); auto.
    congruence.
  Qed.

  (** ** update_links *)
  Lemma upd_out (pl : N -> place) i x : pl i = Out -> pl x = upd pl i Out x.
  Proof. intros E. unfold upd. destruct (N.eqb_spec x i) as [->|]; auto. Qed.

  Lemma s_stop_ok st a sP tP i os ot s t k :
    smem cf st a sP tP -> all_placed a tP -> a_map a i = Some (os, ot) -> detachable a i ->
    sP i = place_of a os -> tP i = place_of a ot -> (s = i \/ t = i -> os = 0) ->
    exists st', s_stop tops st i os ot s t k = Val st' /\
    match k with
    | 0%nat => smem cf st' a sP tP
    | 1%nat => smem cf st' a (upd sP i Out) tP
    | 2%nat => smem cf st' a (upd sP i Out) (upd tP i Out)
    | 3%nat => smem cf st' (a_update a i s ot) (upd sP i Out) (upd tP i Out)
    | 4%nat => smem cf st' (a_update a i s t) (upd sP i Out) (upd tP i Out)
    | 5%nat => smem cf st' (a_update a i s t) (upd sP i (place_of a s)) (upd tP i Out)
    | _ => smem cf st' (a_update a i s t) (upd sP i (place_of a s)) (upd tP i (place_of a t))
    end.
  Proof.
    intros R V EM DET PS PT SELF.
    destruct (sm_range _ _ _ _ _ _ _ R EM) as [IR IF]. assert (I0 : i <> 0) by lia.
    unfold s_stop. destruct k as [|k]; [exists st; auto|].
    assert (ST1 : exists st1, d_source tops st i os = Val st1 /\ smem cf st1 a (upd sP i Out) tP).
    { unfold d_source, s_when. destruct (N.eqb_spec os 0) as [->|OS]; cbn [negb].
      - exists st. split; auto. eapply smem_pl; [| |exact R]; auto.
        intros x. unfold upd. destruct (N.eqb_spec x i) as [->|]; auto.
      - rewrite (s_is_virtual_ok _ _ _ _ _ _ R V). cbn [obind]. unfold isvirt.
        unfold place_of in PS. destruct (N.eqb_spec os 0); [congruence|].
        destruct (a_map a os).
        + destruct (s_detach_is_ok cf tops TOK _ _ _ _ _ _ R DET PS) as (st1 & E & R1 & _). eauto.
        + destruct (s_detach_es_ok cf tops TOK _ _ _ _ _ R DET PS) as (st1 & E & R1 & _). eauto. }
    destruct ST1 as (st1 & E1 & R1). rewrite E1. cbn [obind]. clear E1.
    destruct k as [|k]; [exists st1; auto|].
    assert (ST2 : exists st2, d_target tops st1 i ot = Val st2 /\ smem cf st2 a (upd sP i Out) (upd tP i Out)).
    { unfold d_target, s_when. destruct (N.eqb_spec ot 0) as [->|OT]; cbn [negb].
      - exists st1. split; auto. eapply smem_pl; [| |exact R1]; auto.
        intros x. unfold upd. destruct (N.eqb_spec x i) as [->|]; auto.
      - rewrite (s_is_virtual_ok _ _ _ _ _ _ R1 V). cbn [obind]. unfold isvirt.
        unfold place_of in PT. destruct (N.eqb_spec ot 0); [congruence|].
        destruct (a_map a ot).
        + destruct (s_detach_it_ok cf tops TOK _ _ _ _ _ _ R1 DET PT) as (st2 & E & R2 & _). eauto.
        + destruct (s_detach_et_ok cf tops TOK _ _ _ _ _ R1 DET PT) as (st2 & E & R2 & _). eauto. }
    destruct ST2 as (st2 & E2 & R2). rewrite E2. cbn [obind]. clear E2 st1 R1.
    destruct k as [|k]; [exists st2; auto|].
    assert (VIRT : forall v, v = s \/ v = t -> s_is_virtual st2 v = Val (isvirt a v)).
    { intros v HV. unfold s_is_virtual, isvirt. destruct (N.eqb_spec v 0) as [->|V0]; [eapply s_is_unused_0; eauto|].
      eapply s_is_unused_ok; eauto. intros s' t' E. destruct (N.eq_dec v i) as [->|NE].
      - left. assert (os = 0) by (apply SELF; destruct HV; auto). congruence.
      - rewrite upd_other by auto. eapply V; eauto. }
    rewrite (VIRT s), (VIRT t) by auto. cbn [obind].
    rewrite (s_get_data_ok _ _ _ _ _ _ R2) by lia. cbn [obind].
    destruct k as [|k].
    { eexists. split; [reflexivity|]. rewrite (sm_data _ _ _ _ _ R2 _ _ EM). cbn [snd].
      eapply smem_write; eauto; apply upd_same. }
    set (a' := a_update a i s t).
    assert (R3 : smem cf (s_set_data st2 (upd (s_data st2) i (s, t))) a' (upd sP i Out) (upd tP i Out))
      by (eapply smem_write; eauto; apply upd_same).
    set (st3 := s_set_data st2 _) in *.
    destruct k as [|k]; [exists st3; auto|].
    assert (EM' : a_map a' i = Some (s, t)) by (cbn; apply upd_same).
    assert (DM : forall v, a_map a' v = None <-> a_map a v = None).
    { intros v. cbn [a' a_map a_update]. unfold upd. destruct (N.eqb_spec v i) as [->|]; [|tauto]. split; congruence. }
    assert (ST4 : exists st4, t_source tops (isvirt a s) st3 i s = Val st4 /\
        smem cf st4 a' (upd sP i (place_of a s)) (upd tP i Out)).
    { unfold t_source, s_when, isvirt, place_of. destruct (N.eqb_spec s 0) as [->|S0]; cbn [negb].
      - exists st3. auto.
      - assert (UU : forall p x, upd (upd sP i Out) i p x = upd sP i p x).
        { intros p x. unfold upd. destruct (x =? i); auto. }
        destruct (a_map a s) eqn:ES.
        + destruct (s_attach_is_ok cf tops TOK st3 a' _ _ s t i R3 EM' S0) as (st4 & E4 & R4 & _).
          { rewrite DM. congruence. }
          { apply upd_same. }
          exists st4. split; auto. eapply smem_pl; [| |exact R4]; auto.
        + destruct (s_attach_es_ok cf tops TOK st3 a' _ _ i R3) as (st4 & E4 & R4 & _).
          { exists s, t. auto. }
          { apply upd_same. }
          exists st4. split; auto. eapply smem_pl; [| |exact R4]; auto. }
    destruct ST4 as (st4 & E4 & R4). rewrite E4. cbn [obind]. clear E4.
    destruct k as [|k]; [exists st4; auto|].
    unfold t_target, s_when, isvirt. unfold place_of at 2. destruct (N.eqb_spec t 0) as [->|T0]; cbn [negb].
    - exists st4. auto.
    - assert (UU : forall p x, upd (upd tP i Out) i p x = upd tP i p x).
      { intros p x. unfold upd. destruct (x =? i); auto. }
      destruct (a_map a t) eqn:ES.
      + destruct (s_attach_it_ok cf tops TOK st4 a' _ _ t s i R4 EM' T0) as (st5 & E5 & R5 & _).
        { rewrite DM. congruence. }
        { apply upd_same. }
        exists st5. split; auto. eapply smem_pl; [| |exact R5]; auto.
      + destruct (s_attach_et_ok cf tops TOK st4 a' _ _ i R4) as (st5 & E5 & R5 & _).
        { exists s, t. auto. }
        { apply upd_same. }
        exists st5. split; auto. eapply smem_pl; [| |exact R5]; auto.
  Qed.

  (** The same, by what can be read. *)
  Lemma s_stop_seen st a sP tP i os ot s t k st' :
    smem cf st a sP tP -> all_placed a tP -> a_map a i = Some (os, ot) -> detachable a i ->
    sP i = place_of a os -> tP i = place_of a ot -> (s = i \/ t = i -> os = 0) -> (t = 0 -> s = 0) ->
    s_stop tops st i os ot s t k = Val st' ->
    exists a' sP' tP', smem cf st' a' sP' tP' /\ a_top a' = a_top a /\ a_free a' = a_free a /\
      a_map a' i = Some (s_fields k os ot s t) /\ (forall j, j <> i -> a_map a' j = a_map a j) /\
      (~ s_detached k os s -> all_placed a' tP') /\ (s_detached k os s -> hidden a' tP' i).
  Proof.
    intros R V EM DET PS PT SELF TS E.
    destruct (s_stop_ok st a sP tP i os ot s t k R V EM DET PS PT SELF) as (st'' & E' & RK).
    assert (st'' = st') as -> by congruence. clear E E'.
    assert (VO : forall x y, (x = 0 -> all_placed (a_update a i x y) (upd tP i Out)) /\ (x <> 0 -> hidden (a_update a i x y) (upd tP i Out) i)).
    { intros x y. split.
      - intros -> v s' t'. cbn [a_map a_update]. unfold upd. destruct (N.eqb_spec v i); [intros [= <- <-]; auto|apply V].
      - intros X0. split; [exists x, y; cbn [a_map a_update]; rewrite upd_same; auto|]. split; [apply upd_same|].
        intros v s' t' NE. cbn [a_map a_update]. rewrite !upd_other by auto. apply V. }
    assert (MU : forall x y j, j <> i -> a_map (a_update a i x y) j = a_map a j) by (intros; cbn; now apply upd_other).
    assert (MI : forall x y, a_map (a_update a i x y) i = Some (x, y)) by (intros; cbn; now apply upd_same).
    destruct k as [|[|[|[|[|[|k]]]]]]; cbn [s_fields s_detached].
    - exists a, sP, tP. do 5 (split; auto). split; [auto|tauto].
    - exists a, (upd sP i Out), tP. do 5 (split; auto). split; [auto|tauto].
    - exists a, (upd sP i Out), (upd tP i Out). do 5 (split; auto). split.
      + intros O0 v s' t' M. unfold upd. destruct (N.eqb_spec v i) as [->|]; [left|eapply V; eauto].
        rewrite EM in M. injection M as <- <-. destruct (N.eq_dec os 0); tauto.
      + intros O0. split; [eauto|]. split; [apply upd_same|]. intros v s' t' NE M. rewrite upd_other by auto. eapply V; eauto.
    - exists (a_update a i s ot), (upd sP i Out), (upd tP i Out). do 5 (split; auto). destruct (VO s ot) as [V1 V2]. split; auto.
      intros N0. apply V1. destruct (N.eq_dec s 0); tauto.
    - exists (a_update a i s t), (upd sP i Out), (upd tP i Out). do 5 (split; auto). destruct (VO s t) as [V1 V2]. split; auto.
      intros N0. apply V1. destruct (N.eq_dec s 0); tauto.
    - exists (a_update a i s t), (upd sP i (place_of a s)), (upd tP i Out). do 5 (split; auto). destruct (VO s t) as [V1 V2]. split; auto.
      intros N0. apply V1. destruct (N.eq_dec s 0); tauto.
    - exists (a_update a i s t), (upd sP i (place_of a s)), (upd tP i (place_of a t)). do 5 (split; auto). split; [|tauto].
      intros _ v s' t' M. unfold upd. cbn [a_map a_update] in M. unfold upd in M. destruct (N.eqb_spec v i) as [->|]; [|eapply V; eauto].
      injection M as <- <-. destruct (N.eq_dec t 0) as [T0|T0]; auto. right. rewrite place_of_out. auto.
  Qed.
  Lemma s_stop_inv st a i os ot s t k st' : sinv cf st a -> a_map a i = Some (os, ot) -> split_update_ok a i s t ->
    s_stop tops st i os ot s t k = Val st' ->
    exists a' sP' tP', smem cf st' a' sP' tP' /\ a_top a' = a_top a /\ a_free a' = a_free a /\
      a_map a' i = Some (s_fields k os ot s t) /\ (forall j, j <> i -> a_map a' j = a_map a j) /\
      (~ s_detached k os s -> all_placed a' tP') /\ (s_detached k os s -> hidden a' tP' i).
  Proof.
    intros (R & W & VI) EM (DET & TS & SELF) E. pose proof (all_placed_tpl _ VI) as V.
    eapply s_stop_seen; eauto.
    - unfold spl. now rewrite EM.
    - unfold tpl. now rewrite EM.
    - intros K. destruct (SELF K) as (ot' & K'). congruence.
  Qed.

  (** ** resolve_danglind_internal *)
  Lemma filter_index d (U : list N) (f : link -> bool) k : In k (filter f (map (link_of d) U)) -> In (l_index k) U /\ f k = true.
  Proof. intros K. apply filter_In in K as [K P]. apply in_map_iff in K as (y & <- & K). auto. Qed.

  Lemma users_s_ok st a sP tP i : smem cf st a sP tP -> all_placed a tP -> a_map a i <> None ->
    exists u, users_s cf st i = Val u /\ NoDup (map l_index u) /\
      (forall k, In k u -> sP (l_index k) = Int i /\ l_index k <> i) /\
      (forall x, SplitWrites.moved i sP x = exted (map l_index u) sP x).
  Proof.
    intros R V EM. destruct (s_users_s cf CF _ _ _ _ i R V EM) as (U1 & ND1 & IN1 & E1).
    unfold users_s. rewrite E1. cbn [obind]. eexists. split; [reflexivity|].
    split; [now apply nodup_map_filter|]. split.
    - intros k K. apply filter_index in K as [K P]. split; [now apply IN1|]. destruct (N.eqb_spec (l_index k) i); [discriminate|auto].
    - apply exted_moved; auto.
  Qed.
  Lemma users_t_ok st a sP tP i : smem cf st a sP tP -> all_placed a tP -> a_map a i <> None ->
    exists u, users_t cf st i = Val u /\ NoDup (map l_index u) /\
      (forall k, In k u -> tP (l_index k) = Int i /\ l_index k <> i) /\
      (forall x, SplitWrites.moved i tP x = exted (map l_index u) tP x).
  Proof.
    intros R V EM. destruct (s_users_t cf CF _ _ _ _ i R V EM) as (U2 & ND2 & IN2 & E2).
    unfold users_t. rewrite E2. cbn [obind]. set (f1 := fun k => negb (l_index k =? i)).
    assert (FF : filter (fun k => negb (link_is_full k)) (filter f1 (map (link_of (s_data st)) U2)) =
                 filter f1 (map (link_of (s_data st)) U2)).
    { assert (GEN : forall L, (forall k, In k L -> l_target k = i) ->
        filter (fun k => negb (link_is_full k)) (filter f1 L) = filter f1 L).
      { induction L as [|k L IH]; intros HT; [reflexivity|]. cbn [filter].
        assert (T : l_target k = i) by (apply HT; now left). change (f1 k) with (negb (l_index k =? i)).
        destruct (N.eqb_spec (l_index k) i) as [EI|NE]; cbn [negb].
        - apply IH. intros; apply HT; now right.
        - cbn [filter]. unfold link_is_full at 1. rewrite T. destruct (N.eqb_spec (l_index k) i); [contradiction|].
          rewrite andb_false_r. cbn [negb]. f_equal. apply IH. intros; apply HT; now right. }
      apply GEN. intros k K. apply in_map_iff in K as (y & <- & K). apply IN2 in K.
      pose proof (sm_tp _ _ _ _ _ R y) as O. rewrite K in O. destruct O as ((s & O) & _).
      unfold link_of. rewrite (sm_data _ _ _ _ _ R _ _ O). reflexivity. }
    rewrite FF. eexists. split; [reflexivity|]. split; [now apply nodup_map_filter|]. split.
    - intros k K. apply filter_index in K as [K P]. split; [now apply IN2|]. unfold f1 in P. destruct (N.eqb_spec (l_index k) i); [discriminate|auto].
    - apply exted_moved; auto.
  Qed.

  Lemma resolve_internal_points st i : s_resolve_internal cf tops st i =
    (let* u := users_s cf st i in let* st0 := s_for u (move_s tops i) st in
     let* w := users_t cf st0 i in s_for w (move_t tops i) st0).
  Proof.
    unfold s_resolve_internal, users_s, users_t, move_s, move_t.
    destruct (s_each_iter cf st [c_any cf; i; c_any cf]); cbn [obind]; try reflexivity.
    destruct (s_for _ _ st) as [st0| | |]; cbn [obind]; try reflexivity.
    destruct (s_each_iter cf st0 [c_any cf; c_any cf; i]); reflexivity.
  Qed.

  Lemma exted_other L (pl : N -> place) x : ~ In x L -> exted L pl x = pl x.
  Proof. intros N0. unfold exted. destruct (in_dec N.eq_dec x L); [contradiction|reflexivity]. Qed.
  Lemma exted_placed a L tP : all_placed a tP -> all_placed a (exted L tP).
  Proof.
    intros V x s t M. unfold exted. destruct (in_dec N.eq_dec x L); [right; discriminate|]. eapply V; eauto.
  Qed.
  Lemma nth_firstn_not {A} : forall (u : list A) n k (f : A -> N), nth_error u n = Some k -> NoDup (map f u) ->
    ~ In (f k) (map f (firstn n u)).
  Proof.
    induction u as [|y u IH]; intros [|n] k f E ND; cbn in *; try discriminate; [tauto|].
    inversion ND as [|? ? NI ND']; subst. intros [K|K].
    - apply NI. rewrite K. apply nth_error_In in E. now apply in_map.
    - eapply IH; eauto.
  Qed.
  Lemma in_firstn {A} : forall n (u : list A) k, In k (firstn n u) -> In k u.
  Proof. induction n as [|n IH]; intros [|y u] k K; cbn in *; try tauto. destruct K; auto. Qed.
  Lemma nodup_firstn {A} (f : A -> N) : forall n (u : list A), NoDup (map f u) -> NoDup (map f (firstn n u)).
  Proof.
    induction n as [|n IH]; intros [|y u] ND; cbn in *; try constructor; inversion ND; subst; auto.
    intros K. apply in_map_iff in K as (z & E & K). apply in_firstn in K. apply H1. rewrite <- E. now apply in_map.
  Qed.

  Lemma resolve_at_seen st a i p st' : sinv cf st a -> a_map a i <> None -> users_detachable a i ->
    resolve_at cf tops st i p st' ->
    exists sP tP, smem cf st' a sP tP /\
      match p with
      | MidTarget _ x => x <> i /\ exists s, a_map a x = Some (s, i) /\ (s = 0 -> all_placed a tP) /\ (s <> 0 -> hidden a tP x)
      | _ => all_placed a tP
      end.
  Proof.
    intros (R & W & VI) EM AD (u & EU & P). pose proof (all_placed_tpl _ VI) as V.
    destruct (users_s_ok _ _ _ _ i R V EM) as (u' & EU' & ND & IU & MV). rewrite EU in EU'. injection EU' as <-.
    assert (DS : forall k, In k u -> detachable a (l_index k)).
    { intros k K. destruct (IU _ K) as [X NE]. pose proof (sm_sp _ _ _ _ _ R (l_index k)) as O. rewrite X in O.
      destruct O as ((t & O) & _). eapply AD; eauto. }
    assert (FS : forall n, exists st1, s_for (firstn n u) (move_s tops i) st = Val st1 /\
        smem cf st1 a (exted (map l_index (firstn n u)) (spl a)) (tpl a)).
    { intros n. destruct (s_move_s cf tops TOK a i (tpl a) (firstn n u) st (spl a) R) as (st1 & E & R1 & _).
      - intros k K. apply DS. eapply in_firstn; eauto.
      - now apply nodup_firstn.
      - intros k K. apply IU. eapply in_firstn; eauto.
      - exists st1. split; [exact E|exact R1]. }
    destruct p as [n|n x|n|n x].
    - destruct (FS n) as (st1 & E & R1). assert (st1 = st') as <- by congruence. eauto.
    - destruct P as (st1 & k & E & NK & -> & ED). destruct (FS n) as (st1' & E' & R1). assert (st1' = st1) as -> by congruence.
      pose proof (nth_error_In _ _ NK) as IK.
      destruct (s_detach_is_ok cf tops TOK _ _ _ _ i (l_index k) R1 (DS _ IK)) as (st2 & E2 & R2 & _).
      { rewrite exted_other by (eapply nth_firstn_not; eauto). now apply IU. }
      assert (st2 = st') as <- by congruence. eauto.
    - destruct P as (st0 & w & E0 & EW & E).
      destruct (FS (length u)) as (st0' & E0' & R0). rewrite firstn_all in E0', R0. assert (st0' = st0) as -> by congruence.
      destruct (users_t_ok _ _ _ _ i R0 V EM) as (w' & EW' & NDW & IW & MW). rewrite EW in EW'. injection EW' as <-.
      destruct (s_move_t cf tops TOK a i _ (firstn n w) st0 (tpl a) R0) as (st1 & E1 & R1 & _).
      + intros k K. apply in_firstn in K. destruct (IW _ K) as [X NE]. pose proof (sm_tp _ _ _ _ _ R (l_index k)) as O.
        rewrite X in O. destruct O as ((s & O) & _). eapply AD; eauto.
      + now apply nodup_firstn.
      + intros k K. apply IW. eapply in_firstn; eauto.
      + assert (st1 = st') as -> by (unfold move_t in E; congruence). eexists _, _. split; [exact R1|]. now apply exted_placed.
    - destruct P as (st0 & w & E0 & EW & st1 & k & E & NK & -> & ED).
      destruct (FS (length u)) as (st0' & E0' & R0). rewrite firstn_all in E0', R0. assert (st0' = st0) as -> by congruence.
      destruct (users_t_ok _ _ _ _ i R0 V EM) as (w' & EW' & NDW & IW & MW). rewrite EW in EW'. injection EW' as <-.
      assert (DT : forall k, In k w -> exists s, a_map a (l_index k) = Some (s, i) /\ detachable a (l_index k)).
      { intros k' K. destruct (IW _ K) as [X NE]. pose proof (sm_tp _ _ _ _ _ R (l_index k')) as O. rewrite X in O.
        destruct O as ((s & O) & _). exists s. split; auto. eapply AD; eauto. }
      destruct (s_move_t cf tops TOK a i _ (firstn n w) st0 (tpl a) R0) as (st1' & E1 & R1 & _).
      + intros k' K. apply in_firstn in K. now destruct (DT _ K) as (s & _ & D).
      + now apply nodup_firstn.
      + intros k' K. apply IW. eapply in_firstn; eauto.
      + assert (st1' = st1) as -> by (unfold move_t in E; congruence). pose proof (nth_error_In _ _ NK) as IK.
        destruct (DT _ IK) as (s & MX & D).
        destruct (s_detach_it_ok cf tops TOK _ _ _ _ i (l_index k) R1 D) as (st2 & E2 & R2 & _).
        { rewrite exted_other by (eapply nth_firstn_not; eauto). now apply IW. }
        assert (st2 = st') as -> by congruence. eexists _, _. split; [exact R2|]. split; [now apply IW|].
        pose proof (exted_placed a (map l_index (firstn n w)) _ V) as VE. exists s. split; auto. split.
        * intros -> v s' t' M. unfold upd. destruct (N.eqb_spec v (l_index k)) as [->|]; [left; congruence|]. eapply VE; eauto.
        * intros S0. split; [eauto|]. split; [apply upd_same|]. intros v s' t' NE M. rewrite upd_other by auto. eapply VE; eauto.
  Qed.

  (** ** The trim loop *)
  Lemma s_trim_trimmed : forall fuel st st', s_trim lops fuel st = Val st' -> exists n, s_trimmed lops n st st'.
  Proof.
    induction fuel as [|fuel IH]; intros st st' E; [discriminate|]. cbn [s_trim] in E.
    destruct (s_header st); try discriminate. cbn [obind] in E.
    destruct (N.ltb_spec 0 (sh_alloc st)) as [P|P]; [|injection E as <-; exists O; reflexivity].
    destruct (s_is_unused st (sh_alloc st)) as [[]| | |] eqn:EU; try discriminate; cbn [obind negb] in E;
      [|injection E as <-; exists O; reflexivity].
    destruct (s_unused_detach lops st (sh_alloc st)) as [st1| | |] eqn:ED; try discriminate. cbn [obind] in E.
    rewrite csub_ok in E by lia. cbn [obind] in E. destruct (IH _ _ E) as [n T].
    exists (S n). cbn [s_trimmed]. eauto.
  Qed.

  Lemma s_free_top st a sP tP : smem cf st a sP tP -> all_placed a tP -> 0 < sh_alloc st -> s_is_unused st (sh_alloc st) = Val true ->
    1 <= a_top a /\ sh_alloc st = a_top a /\ a_map a (a_top a) = None /\ In (a_top a) (a_free a) /\
    (forall x, sP x <> Int (a_top a)) /\ (forall x, tP x <> Int (a_top a)).
  Proof.
    intros R V P E. pose proof (sm_alloc _ _ _ _ _ R) as HA. rewrite HA in P, E.
    rewrite (s_is_unused_ok _ _ _ _ _ _ R) in E by (lia || apply V).
    destruct (a_map a (a_top a)) eqn:M; [discriminate|]. split; [lia|]. do 2 (split; auto). split.
    - destruct (in_dec N.eq_dec (a_top a) (a_free a)) as [|NI]; auto. exfalso.
      assert (K : a_map a (a_top a) <> None) by (apply (sm_dom _ _ _ _ _ R); split; [lia|auto]). congruence.
    - split; intros x K.
      + pose proof (sm_sp _ _ _ _ _ R x) as O. rewrite K in O. tauto.
      + pose proof (sm_tp _ _ _ _ _ R x) as O. rewrite K in O. tauto.
  Qed.

  (** Complete rounds change nothing that can be seen. *)
  Lemma s_trimmed_smem sP tP : forall n st a st', smem cf st a sP tP -> all_placed a tP -> s_trimmed lops n st st' ->
    exists a', smem cf st' a' sP tP /\ all_placed a' tP /\ (forall j, a_map a' j = a_map a j) /\ a_top a' <= a_top a.
  Proof.
    induction n as [|n IH]; intros st a st' R V T.
    { cbn in T. subst. exists a. split; [exact R|]. do 2 (split; auto). lia. }
    destruct T as (P & EU & st1 & ED & T). destruct (s_free_top _ _ _ _ R V P EU) as (T1 & HA & M & FI & NS & NT).
    destruct (s_unused_detach_ok cf lops LOK st a _ _ (a_top a) R FI) as (st1' & ED' & R1 & _).
    rewrite HA in ED, T. rewrite ED in ED'. injection ED' as <-.
    pose proof (s_lower_ok cf st1 _ _ _ R1) as R2. cbn [a_top a_free a_map] in R2.
    specialize (R2 T1 (upd_same _ _ _ _) NS NT).
    destruct (IH _ _ st' R2) as (a' & R3 & V3 & EM & LE).
    { intros v s t. cbn [a_map]. unfold upd. destruct (v =? a_top a); [discriminate|]. apply V. }
    { exact T. }
    cbn [a_top a_map] in EM, LE.
    exists a'. split; [exact R3|]. split; [exact V3|]. split; [|lia]. intros j. rewrite EM. unfold upd.
    destruct (N.eqb_spec j (a_top a)) as [->|]; auto.
  Qed.

  (** ** delete_links *)
  Lemma awf_same a a' : awf a -> a_top a' = a_top a -> a_free a' = a_free a ->
    (forall j, a_map a' j = None <-> a_map a j = None) -> awf a'.
  Proof.
    intros W T F D. constructor; rewrite ?T, ?F; try apply W.
    - intros i. rewrite <- (wf_dom _ W i). now rewrite D.
    - destruct (wf_top _ W); auto. right. now rewrite D.
  Qed.

  Lemma s_delete_at_seen st a i os ot p st' : sinv cf st a -> a_map a i = Some (os, ot) -> split_delete_ok a i ->
    s_delete_at cf tops lops st i os ot p st' ->
    exists a' sP tP, smem cf st' a' sP tP /\ a_top a' <= a_top a /\
    match p with
    | Resolving (MidTarget _ x) => awf a' /\ (forall j, a_map a' j = a_map a j) /\
        x <> i /\ exists s, a_map a x = Some (s, i) /\ (s = 0 -> all_placed a' tP) /\ (s <> 0 -> hidden a' tP x)
    | Resolving _ => all_placed a' tP /\ forall j, a_map a' j = a_map a j
    | Emptying k => awf a' /\ a_map a' i = Some (s_fields k os ot 0 0) /\ (forall j, j <> i -> a_map a' j = a_map a j) /\
        (~ s_detached k os 0 -> all_placed a' tP) /\ (s_detached k os 0 -> hidden a' tP i)
    | SListed | STrimming _ => all_placed a' tP /\ a_map a' i = None /\ forall j, j <> i -> a_map a' j = a_map a j
    | SDetaching _ => all_placed a' tP /\ exists k, 1 <= k < i /\ a_map a k = None /\ a_map a' k = Some (0, 0) /\ a_map a' i = None /\
        forall j, j <> i -> j <> k -> a_map a' j = a_map a j
    end.
  Proof.
    intros K M DEL. pose proof K as (R & W & VI). pose proof (all_placed_tpl _ VI) as V.
    pose proof (awf_some _ _ _ W M) as [IR NF].
    assert (I0 : i <> 0) by lia. assert (EN : a_map a i <> None) by congruence.
    destruct p as [r|k| |n|n]; cbn [s_delete_at].
    { intros E. destruct (resolve_at_seen _ _ _ _ _ K EN (proj2 DEL) E) as (sP & tP & R1 & P).
      exists a, sP, tP. split; auto. split; [lia|]. destruct r; auto. }
    all: destruct (s_resolve_internal_ok cf CF tops TOK _ _ _ _ i R V EN (proj2 DEL)) as (st0 & E0 & R0 & _).
    all: pose proof (moved_placed _ i _ V) as V0.
    all: assert (PS : SplitWrites.moved i (spl a) i = place_of a os) by (unfold SplitWrites.moved; rewrite N.eqb_refl; unfold spl; now rewrite M).
    all: assert (PT : SplitWrites.moved i (tpl a) i = place_of a ot) by (unfold SplitWrites.moved; rewrite N.eqb_refl; unfold tpl; now rewrite M).
    all: assert (SELF : 0 = i \/ 0 = i -> os = 0) by (intros [X|X]; congruence).
    { intros (st0' & E0' & E). assert (st0' = st0) as -> by congruence.
      destruct (s_stop_seen _ _ _ _ i os ot 0 0 k st' R0 V0 M (proj1 DEL) PS PT SELF (fun _ => eq_refl) E)
        as (a' & sP & tP & R1 & T1 & F1 & MI & MJ & P1 & P2).
      exists a', sP, tP. split; auto. split; [lia|]. split; [|auto].
      apply (awf_same a); auto. intros j. destruct (N.eq_dec j i) as [->|NE]; [rewrite MI, M; split; discriminate|]. now rewrite MJ. }
    all: destruct (s_relink_ok cf tops TOK _ _ _ _ i os ot 0 0 R0 V0 M (proj1 DEL) PS PT SELF) as (st1 & E1 & R1 & _).
    all: change (place_of a 0) with Out in R1.
    all: set (sP := upd (SplitWrites.moved i (spl a)) i Out) in *; set (tP := upd (SplitWrites.moved i (tpl a)) i Out) in *.
    all: assert (NS : forall x, sP x <> Int i)
      by (intros x; unfold sP, upd, SplitWrites.moved; destruct (x =? i); [discriminate|];
          destruct (spl a x) as [| |v]; try discriminate; destruct (N.eqb_spec v i); congruence).
    all: assert (NT : forall x, tP x <> Int i)
      by (intros x; unfold tP, upd, SplitWrites.moved; destruct (x =? i); [discriminate|];
          destruct (tpl a x) as [| |v]; try discriminate; destruct (N.eqb_spec v i); congruence).
    all: assert (VD : forall b, (forall j, a_map b j = upd (a_map a) i None j) -> all_placed b tP)
      by (intros b MB x s t; rewrite MB; unfold upd; destruct (N.eqb_spec x i); [discriminate|]; intros X;
          destruct (V0 _ _ _ X); auto; right; unfold tP; now rewrite upd_other).
    { intros (st0' & st1' & E0' & E1' & LT & EA). assert (st0' = st0) as -> by congruence. assert (st1' = st1) as -> by congruence.
      rewrite (sm_alloc _ _ _ _ _ R1) in LT. cbn [a_top a_update] in LT.
      destruct (s_unused_attach_ok cf lops LOK _ _ _ _ i R1) as (st3 & E3 & R3 & _); auto.
      { cbn [a_map a_update]. apply upd_same. }
      assert (st3 = st') as -> by congruence. cbn [a_top a_free a_map a_update] in R3.
      eexists _, _, _. split; [exact R3|]. cbn [a_top a_map]. split; [lia|].
      assert (MD : forall j, upd (upd (a_map a) i (Some (0, 0))) i None j = upd (a_map a) i None j)
        by (intros j; unfold upd; destruct (j =? i); reflexivity).
      split; [apply VD; exact MD|]. split; [apply upd_same|]. intros j J. now rewrite MD, upd_other. }
    all: assert (LOW : i = sh_alloc st1 -> exists a1, smem cf (s_set_alloc st1 (sh_alloc st1 - 1)) a1 sP tP /\ all_placed a1 tP /\
        a_top a1 = i - 1 /\ a_map a1 i = None /\ forall j, j <> i -> a_map a1 j = a_map a j).
    1,3: (intros EI; rewrite (sm_alloc _ _ _ _ _ R1) in *; cbn [a_top a_update] in *;
      pose proof (s_lower_ok cf _ _ _ _ R1) as R2; cbn [a_top a_update a_free a_map] in R2; rewrite <- EI in *;
      specialize (R2 ltac:(lia) (upd_same _ _ _ _) NS NT);
      assert (MD : forall j, upd (upd (a_map a) i (Some (0, 0))) i None j = upd (a_map a) i None j)
        by (intros j; unfold upd; destruct (j =? i); reflexivity);
      eexists; split; [exact R2|]; cbn [a_top a_map]; split; [apply VD; exact MD|]; split; [reflexivity|];
      split; [apply upd_same|]; intros j J; now rewrite MD, upd_other).
    - intros (st0' & st1' & E0' & E1' & EI & T). assert (st0' = st0) as -> by congruence. assert (st1' = st1) as -> by congruence.
      destruct (LOW EI) as (a1 & R2 & V2 & T2 & MI & MJ).
      destruct (s_trimmed_smem _ _ _ _ _ _ R2 V2 T) as (a3 & R3 & V3 & M3 & LE).
      exists a3, sP, tP. split; auto. split; [lia|]. split; auto. rewrite M3. split; auto. intros j J. now rewrite M3, MJ.
    - intros (st0' & st1' & E0' & E1' & EI & st2 & T & P & EU & ED). assert (st0' = st0) as -> by congruence. assert (st1' = st1) as -> by congruence.
      destruct (LOW EI) as (a1 & R2 & V2 & T2 & MI & MJ).
      destruct (s_trimmed_smem _ _ _ _ _ _ R2 V2 T) as (a3 & R3 & V3 & M3 & LE).
      destruct (s_free_top _ _ _ _ R3 V3 P EU) as (T1 & HA & MN & FI & _ & _).
      destruct (s_unused_detach_ok cf lops LOK _ _ _ _ (a_top a3) R3 FI) as (st3 & ED' & R4 & _).
      rewrite HA in ED. assert (st3 = st') as -> by congruence.
      eexists _, _, _. split; [exact R4|]. cbn [a_top a_map]. split; [lia|]. split.
      { intros v s t. cbn [a_map]. unfold upd. destruct (v =? a_top a3); [intros [= <- <-]; auto|]. apply V3. }
      exists (a_top a3). split; [lia|]. assert (NE : a_top a3 <> i) by lia.
      split; [rewrite <- MJ by auto; now rewrite <- M3|]. split; [apply upd_same|]. split; [rewrite upd_other by auto; now rewrite M3|].
      intros j J1 J2. rewrite upd_other by auto. now rewrite M3, MJ.
  Qed.
End SC.
