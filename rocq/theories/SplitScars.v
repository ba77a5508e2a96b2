(** The two-memory store over memories that interrupted calls left behind: some links are in
    another tree than the one they belong to, or in none, and those with a source that are in no
    tree of targets cannot be read. *)
From Coq Require Import NArith List Bool Lia Permutation.
From Verif Require Import Base Trees Lists TreeInv Spec Iface UnitModel UnitInv UnitOps LinkModel SplitModel Forest
  SplitInv SplitReads SplitOps SplitWrites SplitLinks Doublets DoubletsOK Obs Hist Claims UnitHist TreeImpl SplitHist SplitCrash.
From Verif Require Scars.
Import ListNotations.
Open Scope N_scope.

(** The pairs the memory holds, by index. *)
Definition stored := N -> option (N * N).
Definition in_tree (p : place) : bool := match p with Out => false | _ => true end.
(** A link can be read if it has no source or is in a tree of targets (split/store.rs:306-317). *)
Definition readable (D : stored) (tP : N -> place) (i : N) : bool :=
  match D i with Some (s, _) => (s =? 0) || in_tree (tP i) | None => false end.
(** The tree in which the store looks for a link that refers to [v]. *)
Definition home (D : stored) (tP : N -> place) (v : N) : place :=
  if v =? 0 then Out else if readable D tP v then Int v else Ext.
(** No other node of the tree that has [x] holds the same pair. *)
Definition tree_lone (D : stored) (pl : N -> place) (x : N) : Prop :=
  pl x <> Out -> forall j, pl j = pl x -> D j = D x -> j = x.

(** What can be read. *)
Definition seen (D : stored) (tP : N -> place) (i : N) : option (N * N) := if readable D tP i then D i else None.

Lemma readable_ext D D' tP tP' i : D i = D' i -> tP i = tP' i -> readable D tP i = readable D' tP' i.
Proof. intros E1 E2. unfold readable. now rewrite E1, E2. Qed.
Lemma home_ext D D' tP tP' v : D v = D' v -> tP v = tP' v -> home D tP v = home D' tP' v.
Proof. intros E1 E2. unfold home. now rewrite (readable_ext D D' tP tP' v). Qed.
Lemma readable_some D tP i : readable D tP i = true -> D i <> None.
Proof. unfold readable. destruct (D i); discriminate. Qed.
Lemma seen_some D tP i s t : seen D tP i = Some (s, t) <-> D i = Some (s, t) /\ (s = 0 \/ tP i <> Out).
Proof.
  unfold seen, readable. destruct (D i) as [[x y]|]; [|split; [discriminate|intros [K _]; discriminate]].
  destruct (N.eqb_spec x 0) as [->|X0]; cbn [orb].
  - split; [intros [= <- <-]; auto|]. intros [[= <- <-] _]. reflexivity.
  - destruct (tP i); cbn [in_tree]; (split; [intros [= <- <-]; split; auto; right; discriminate|]).
    + intros [[= <- <-] [K|K]]; [contradiction|congruence].
    + intros [K _]. exact K.
    + intros [K _]. exact K.
Qed.
Lemma seen_none D tP i : seen D tP i = None <-> readable D tP i = false.
Proof.
  unfold seen. destruct (readable D tP i) eqn:E; [|tauto]. split; [|discriminate].
  intros K. apply readable_some in E. contradiction.
Qed.
Lemma home_out D tP v : home D tP v = Out <-> v = 0.
Proof. unfold home. destruct (N.eqb_spec v 0); [tauto|]. destruct (readable D tP v); split; intros; congruence. Qed.
Lemma home_int D tP v w : home D tP v = Int w <-> v = w /\ v <> 0 /\ readable D tP v = true.
Proof.
  unfold home. destruct (N.eqb_spec v 0); [split; [discriminate|tauto]|].
  destruct (readable D tP v); split; try discriminate; intros K.
  - injection K as ->. auto.
  - destruct K as (-> & _). reflexivity.
  - destruct K as (_ & _ & K). discriminate.
Qed.
Lemma home_extern D tP v : home D tP v = Ext <-> v <> 0 /\ readable D tP v = false.
Proof.
  unfold home. destruct (N.eqb_spec v 0); [split; [discriminate|tauto]|].
  destruct (readable D tP v); split; try discriminate; tauto || (intros [_ K]; discriminate).
Qed.

Section W.
  Variables (cf : cfg) (tops : tree_ops) (lops : list_ops).
  Hypothesis ENV : unit_env cf tops lops.
  Let CF : cfg_ok cf := proj1 ENV.
  Let TOK : tree_ops_ok tops := proj1 (proj2 ENV).
  Let LOK : list_ops_ok lops := proj2 (proj2 ENV).

  (** ** Reading *)
  Lemma m_unused st a sP tP v : smem cf st a sP tP -> v <> 0 ->
    s_is_unused st v = Val (negb (readable (a_map a) tP v)).
  Proof.
    intros R V0. destruct (a_map a v) as [[s t]|] eqn:M.
    2:{ rewrite (s_is_unused_ok _ _ _ _ _ _ R V0) by congruence. unfold readable. now rewrite M. }
    destruct (readable (a_map a) tP v) eqn:RD.
    - rewrite (s_is_unused_ok _ _ _ _ _ _ R V0); [now rewrite M|].
      intros s' t' E. unfold readable in RD. rewrite E in RD. apply orb_true_iff in RD as [RD|RD]; [left; now apply N.eqb_eq|].
      right. intros Z. now rewrite Z in RD.
    - unfold readable in RD. rewrite M in RD. apply orb_false_iff in RD as [S0 TO]. apply N.eqb_neq in S0.
      assert (O : tP v = Out) by (destruct (tP v); [reflexivity|discriminate|discriminate]).
      destruct (sm_range cf _ _ _ _ _ _ R M) as [IR IF].
      unfold s_is_unused. rewrite (s_header_ok _ _ _ _ _ R). cbn [obind].
      rewrite (sm_alloc _ _ _ _ _ R), (sm_first _ _ _ _ _ R). pose proof (sm_len _ _ _ _ _ R) as HL.
      destruct (N.leb_spec v (a_top a)); [|lia]. cbn [andb].
      destruct (N.eqb_spec (hd 0 (a_free a)) v) as [E|E]; cbn [negb]; [reflexivity|].
      rewrite rd_ok by lia. cbn [obind]. rewrite (s_get_data_ok _ _ _ _ _ _ R) by lia. cbn [obind].
      rewrite (sm_data _ _ _ _ _ R _ _ M). cbn [fst].
      rewrite (fo_out _ _ _ _ _ _ (sm_tgt _ _ _ _ _ R) v) by auto. cbn [nz nd0 N.eqb].
      destruct (N.eqb_spec s 0); [contradiction|reflexivity].
  Qed.

  Definition virt (a : astate) (tP : N -> place) (v : N) : bool :=
    if v =? 0 then match a_free a with [] => true | _ => false end else negb (readable (a_map a) tP v).
  Lemma m_virtual st a sP tP v : smem cf st a sP tP -> s_is_virtual st v = Val (virt a tP v).
  Proof.
    intros R. unfold s_is_virtual, virt. destruct (N.eqb_spec v 0) as [->|V0]; [eapply s_is_unused_0; eauto|].
    now apply (m_unused _ _ sP).
  Qed.
  Lemma virt_read a tP v : v <> 0 -> virt a tP v = negb (readable (a_map a) tP v).
  Proof. intros V0. unfold virt. destruct (N.eqb_spec v 0); [contradiction|reflexivity]. Qed.

  Lemma m_range st a sP tP i : smem cf st a sP tP -> readable (a_map a) tP i = true -> 1 <= i <= a_top a.
  Proof. intros R K. apply readable_some in K. now apply (sm_dom _ _ _ _ _ R). Qed.

  Lemma m_exists st a sP tP i : smem cf st a sP tP -> s_exists cf st i = Val (readable (a_map a) tP i).
  Proof.
    intros R. unfold s_exists. rewrite (s_header_ok _ _ _ _ _ R). cbn [obind].
    rewrite (ok_istart _ CF), (sm_alloc _ _ _ _ _ R).
    destruct (N.leb_spec 1 i); destruct (N.leb_spec i (a_top a)); cbn [andb];
      try (destruct (readable (a_map a) tP i) eqn:E; [apply (m_range _ _ _ _ _ R) in E; lia|reflexivity]).
    rewrite (m_unused _ _ _ _ _ R) by lia. cbn [obind]. now rewrite negb_involutive.
  Qed.
  Lemma m_get st a sP tP i : smem cf st a sP tP -> s_get_link cf st i = Val (olink i (seen (a_map a) tP i)).
  Proof.
    intros R. unfold s_get_link. rewrite (m_exists _ _ _ _ i R). cbn [obind]. unfold seen.
    destruct (readable (a_map a) tP i) eqn:RD; [|reflexivity].
    destruct (a_map a i) as [[s t]|] eqn:E; [|apply readable_some in RD; contradiction].
    destruct (sm_range cf _ _ _ _ _ _ R E). pose proof (sm_len _ _ _ _ _ R). pose proof (sm_dlen _ _ _ _ _ R).
    unfold s_get_data_unchecked. rewrite (s_view_ok _ _ _ _ _ R). cbn [obind].
    rewrite rdu_ok by lia. cbn [obind]. rewrite (sm_data _ _ _ _ _ R _ _ E). reflexivity.
  Qed.

  (** The abstract store of what can be read. *)
  Definition shown_part (a : astate) (tP : N -> place) : astate := mkA (a_top a) (a_free a) (seen (a_map a) tP).
  Lemma m_each_all st a sP tP H (h : rhandler H) x : smem cf st a sP tP ->
    s_each_all cf st h x = Val (run_handler h (alinks (shown_part a tP)) x).
  Proof.
    intros R. unfold s_each_all. rewrite (s_header_ok _ _ _ _ _ R). cbn [obind]. rewrite (sm_alloc _ _ _ _ _ R).
    unfold alinks. change (a_top (shown_part a tP)) with (a_top a). change (a_map (shown_part a tP)) with (seen (a_map a) tP).
    generalize (range1 (a_top a)). intros l. revert x. induction l as [|j l IH]; intros x; [reflexivity|].
    cbn [s_each_idx flat_map]. rewrite (m_get _ _ _ _ j R). cbn [obind].
    destruct (seen (a_map a) tP j) as [[y z]|]; cbn [olink app run_handler]; [|apply IH].
    destruct (h x (mkLink j y z)) as [x' []]; [apply IH|reflexivity].
  Qed.

  (** ** Taking a node out of a tree in which no other has its pair *)
  Lemma m_detach_is st a sP tP v x : smem cf st a sP tP -> tree_lone (a_map a) sP x -> sP x = Int v ->
    exists st', s_detach_is tops st v x = Val st' /\ smem cf st' a (upd sP x Out) tP /\ same_mem st st'.
  Proof.
    intros R D X. pose proof (sm_sp _ _ _ _ _ R x) as O. rewrite X in O. destruct O as ((tx & EX) & V0 & VM).
    apply (sm_dom _ _ _ _ _ R) in VM as [VR _]. pose proof (sm_len _ _ _ _ _ R).
    assert (DI : forall j, sP j = Int v -> key_is (s_data st) j = key_is (s_data st) x -> j = x).
    { intros j J KJ. pose proof (sm_sp _ _ _ _ _ R j) as O. rewrite J in O. destruct O as ((tj & EJ) & _).
      rewrite (sm_key_is _ _ _ _ _ _ _ _ R EX), (sm_key_is _ _ _ _ _ _ _ _ R EJ) in KJ. inversion KJ; subst.
      apply D; congruence. }
    destruct (forest_detach_int tops TOK _ _ _ _ _ _ x v (sm_src _ _ _ _ _ R) X DI) as (c & r & E & F & C0).
    unfold s_detach_is. rewrite rd_ok by lia. cbn [obind]. rewrite (s_view_ok _ _ _ _ _ R). cbn [obind].
    rewrite E. cbn [obind]. eexists. split; [reflexivity|]. split; [|repeat split].
    eapply smem_trees; try exact R; try reflexivity; cbn [s_set_src s_rs s_is]; auto.
    - apply upd_other. auto.
    - apply R.
    - apply sp_ok_upd; [apply R|exact I].
    - apply R.
  Qed.
  Lemma m_detach_it st a sP tP v x : smem cf st a sP tP -> tree_lone (a_map a) tP x -> tP x = Int v ->
    exists st', s_detach_it tops st v x = Val st' /\ smem cf st' a sP (upd tP x Out) /\ same_mem st st'.
  Proof.
    intros R D X. pose proof (sm_tp _ _ _ _ _ R x) as O. rewrite X in O. destruct O as ((sx & EX) & V0 & VM).
    apply (sm_dom _ _ _ _ _ R) in VM as [VR _]. pose proof (sm_len _ _ _ _ _ R).
    assert (DI : forall j, tP j = Int v -> key_it (s_data st) j = key_it (s_data st) x -> j = x).
    { intros j J KJ. pose proof (sm_tp _ _ _ _ _ R j) as O. rewrite J in O. destruct O as ((sj & EJ) & _).
      rewrite (sm_key_it _ _ _ _ _ _ _ _ R EX), (sm_key_it _ _ _ _ _ _ _ _ R EJ) in KJ. inversion KJ; subst.
      apply D; congruence. }
    destruct (forest_detach_int tops TOK _ _ _ _ _ _ x v (sm_tgt _ _ _ _ _ R) X DI) as (c & r & E & F & C0).
    unfold s_detach_it. rewrite rd_ok by lia. cbn [obind]. rewrite (s_view_ok _ _ _ _ _ R). cbn [obind].
    rewrite E. cbn [obind]. eexists. split; [reflexivity|]. split; [|repeat split].
    eapply smem_trees; try exact R; try reflexivity; cbn [s_set_tgt s_rt s_it]; auto; try congruence.
    - unfold sh_sroot. cbn [s_rt s_set_tgt]. rewrite upd_other by auto. apply R.
    - unfold sh_troot. cbn [s_it s_set_tgt]. rewrite C0. exact F.
    - apply R.
    - apply tp_ok_upd; [apply R|exact I].
  Qed.
  Lemma m_detach_es st a sP tP x : smem cf st a sP tP -> tree_lone (a_map a) sP x -> sP x = Ext ->
    exists st', s_detach_es tops st x = Val st' /\ smem cf st' a (upd sP x Out) tP /\ same_mem st st'.
  Proof.
    intros R D X. pose proof (sm_sp _ _ _ _ _ R x) as O. rewrite X in O. destruct O as (sx & tx & EX & SX).
    assert (DI : forall j, sP j = Ext -> key_src (s_data st) j = key_src (s_data st) x -> j = x).
    { intros j J KJ. pose proof (sm_sp _ _ _ _ _ R j) as O. rewrite J in O. destruct O as (sj & tj & EJ & _).
      rewrite (sm_key_src _ _ _ _ _ _ _ _ R EX), (sm_key_src _ _ _ _ _ _ _ _ R EJ) in KJ. inversion KJ; subst.
      apply D; congruence. }
    destruct (forest_detach_ext tops TOK _ _ _ _ _ _ x (sm_src _ _ _ _ _ R) X DI) as (c & r & E & F & C0).
    unfold s_detach_es. rewrite (s_header_ok _ _ _ _ _ R), (s_view_ok _ _ _ _ _ R). cbn [obind].
    rewrite E. cbn [obind]. eexists. split; [reflexivity|]. split; [|repeat split].
    eapply smem_trees; try exact R; try reflexivity; cbn [s_set_src s_set_tgt s_rs s_is s_rt s_it]; auto.
    - apply (sm_tgt_root cf _ _ _ _ r R).
    - apply sp_ok_upd; [apply R|exact I].
    - apply R.
  Qed.
  Lemma m_detach_et st a sP tP x : smem cf st a sP tP -> tree_lone (a_map a) tP x -> tP x = Ext ->
    exists st', s_detach_et tops st x = Val st' /\ smem cf st' a sP (upd tP x Out) /\ same_mem st st'.
  Proof.
    intros R D X. pose proof (sm_tp _ _ _ _ _ R x) as O. rewrite X in O. destruct O as (sx & tx & EX & SX).
    assert (DI : forall j, tP j = Ext -> key_tgt (s_data st) j = key_tgt (s_data st) x -> j = x).
    { intros j J KJ. pose proof (sm_tp _ _ _ _ _ R j) as O. rewrite J in O. destruct O as (sj & tj & EJ & _).
      rewrite (sm_key_tgt _ _ _ _ _ _ _ _ R EX), (sm_key_tgt _ _ _ _ _ _ _ _ R EJ) in KJ. inversion KJ; subst.
      apply D; congruence. }
    destruct (forest_detach_ext tops TOK _ _ _ _ _ _ x (sm_tgt _ _ _ _ _ R) X DI) as (c & r & E & F & C0).
    unfold s_detach_et. rewrite (s_header_ok _ _ _ _ _ R), (s_view_ok _ _ _ _ _ R). cbn [obind].
    rewrite E. cbn [obind]. eexists. split; [reflexivity|]. split; [|repeat split].
    destruct (set_troot_0 c r) as (T1 & T2 & T3).
    eapply smem_trees; try exact R; try reflexivity; cbn [s_set_src s_set_tgt s_rs s_is s_rt s_it]; auto; try congruence.
    - apply R.
    - unfold sh_troot. cbn [s_set_tgt s_it]. rewrite T1. eapply forest_ext; [| | | |exact F]; auto.
      intros y Y. unfold set_troot. now apply upd_other.
    - apply R.
    - apply tp_ok_upd; [apply R|exact I].
  Qed.

  (** ** update_links, up to any point *)
  Definition lone (a : astate) (sP tP : N -> place) (x : N) : Prop :=
    tree_lone (a_map a) sP x /\ tree_lone (a_map a) tP x.

  (** Where the link is at each point. *)
  Definition stop_s (D : stored) (sP tP : N -> place) (i s : N) (k : nat) : N -> place :=
    match k with
    | 0%nat => sP
    | 1%nat | 2%nat | 3%nat | 4%nat => upd sP i Out
    | _ => upd sP i (home D (upd tP i Out) s)
    end.
  Definition stop_t (D : stored) (tP : N -> place) (i t : N) (k : nat) : N -> place :=
    match k with
    | 0%nat | 1%nat => tP
    | 2%nat | 3%nat | 4%nat | 5%nat => upd tP i Out
    | _ => upd tP i (home D (upd tP i Out) t)
    end.

  Lemma m_stop st a sP tP i os ot s t k : smem cf st a sP tP -> a_map a i = Some (os, ot) -> lone a sP tP i ->
    sP i = home (a_map a) tP os -> tP i = home (a_map a) tP ot ->
    exists st', s_stop tops st i os ot s t k = Val st' /\
      smem cf st' (let (x, y) := s_fields k os ot s t in a_update a i x y)
        (stop_s (a_map a) sP tP i s k) (stop_t (a_map a) tP i t k) /\ same_mem st st'.
  Proof.
    intros R EM [LS LT] PS PT.
    destruct (sm_range _ _ _ _ _ _ _ R EM) as [IR IF]. assert (I0 : i <> 0) by lia.
    assert (NOP : forall st' sP' tP', smem cf st' a sP' tP' -> smem cf st' (a_update a i os ot) sP' tP').
    { intros st' sP' tP' R'. eapply smem_ext; [| | |exact R']; auto. intros j. cbn [a_map a_update]. unfold upd.
      destruct (N.eqb_spec j i) as [->|]; auto. }
    unfold s_stop. destruct k as [|k].
    { exists st. cbn [s_fields stop_s stop_t]. split; auto. split; [now apply NOP|apply same_mem_refl]. }
    assert (ST1 : exists st1, d_source tops st i os = Val st1 /\ smem cf st1 a (upd sP i Out) tP /\ same_mem st st1).
    { unfold d_source, s_when. destruct (N.eqb_spec os 0) as [->|OS]; cbn [negb].
      - exists st. split; auto. split; [|apply same_mem_refl]. eapply smem_pl; [| |exact R]; auto.
        intros x. unfold upd. destruct (N.eqb_spec x i) as [->|]; auto.
      - rewrite (m_virtual _ _ _ _ _ R), virt_read by auto. cbn [obind]. destruct (readable (a_map a) tP os) eqn:RD; cbn [negb].
        + apply (m_detach_is _ _ _ _ os i R); auto. rewrite PS. now apply home_int.
        + apply (m_detach_es _ _ _ _ i R); auto. rewrite PS. now apply home_extern. }
    destruct ST1 as (st1 & E1 & R1 & M1). rewrite E1. cbn [obind]. clear E1.
    destruct k as [|k].
    { exists st1. cbn [s_fields stop_s stop_t]. split; auto. }
    assert (ST2 : exists st2, d_target tops st1 i ot = Val st2 /\ smem cf st2 a (upd sP i Out) (upd tP i Out) /\ same_mem st st2).
    { unfold d_target, s_when. destruct (N.eqb_spec ot 0) as [->|OT]; cbn [negb].
      - exists st1. split; auto. split; [|exact M1]. eapply smem_pl; [| |exact R1]; auto.
        intros x. unfold upd. destruct (N.eqb_spec x i) as [->|]; auto.
      - rewrite (m_virtual _ _ _ _ _ R1), virt_read by auto. cbn [obind]. destruct (readable (a_map a) tP ot) eqn:RD; cbn [negb].
        + destruct (m_detach_it _ _ _ _ ot i R1 LT) as (st2 & E & R2 & M2); [rewrite PT; now apply home_int|].
          exists st2. split; auto. split; auto. eapply same_mem_trans; eauto.
        + destruct (m_detach_et _ _ _ _ i R1 LT) as (st2 & E & R2 & M2); [rewrite PT; now apply home_extern|].
          exists st2. split; auto. split; auto. eapply same_mem_trans; eauto. }
    destruct ST2 as (st2 & E2 & R2 & M2). rewrite E2. cbn [obind]. clear E2 st1 R1 M1.
    destruct k as [|k].
    { exists st2. cbn [s_fields stop_s stop_t]. split; auto. }
    rewrite !(m_virtual _ _ _ _ _ R2). cbn [obind].
    rewrite (s_get_data_ok _ _ _ _ _ _ R2) by lia. cbn [obind].
    destruct k as [|k].
    { eexists. split; [reflexivity|]. rewrite (sm_data _ _ _ _ _ R2 _ _ EM). cbn [snd s_fields stop_s stop_t]. split; [|exact M2].
      eapply smem_write; eauto; apply upd_same. }
    set (a' := a_update a i s t). set (tP2 := upd tP i Out) in *.
    assert (R3 : smem cf (s_set_data st2 (upd (s_data st2) i (s, t))) a' (upd sP i Out) tP2)
      by (eapply smem_write; eauto; apply upd_same).
    set (st3 := s_set_data st2 _) in *. assert (M3 : same_mem st st3) by exact M2.
    destruct k as [|k].
    { exists st3. cbn [s_fields stop_s stop_t]. split; auto. }
    assert (EM' : a_map a' i = Some (s, t)) by (cbn; apply upd_same).
    assert (DM : forall v, a_map a' v = None <-> a_map a v = None).
    { intros v. cbn [a' a_map a_update]. unfold upd. destruct (N.eqb_spec v i) as [->|]; [|tauto]. split; congruence. }
    assert (UU : forall (pl : N -> place) p x, upd (upd pl i Out) i p x = upd pl i p x).
    { intros pl p x. unfold upd. destruct (x =? i); auto. }
    assert (ST4 : exists st4, t_source tops (virt a tP2 s) st3 i s = Val st4 /\
        smem cf st4 a' (upd sP i (home (a_map a) tP2 s)) tP2 /\ same_mem st st4).
    { unfold t_source, s_when. destruct (N.eqb_spec s 0) as [->|S0]; cbn [negb].
      - exists st3. auto.
      - rewrite virt_read by auto. destruct (readable (a_map a) tP2 s) eqn:RD; cbn [negb].
        + assert (HM : home (a_map a) tP2 s = Int s) by now apply home_int. rewrite HM.
          destruct (s_attach_is_ok cf tops TOK st3 a' _ _ s t i R3 EM' S0) as (st4 & E4 & R4 & M4).
          { rewrite DM. now apply (readable_some _ tP2). }
          { apply upd_same. }
          exists st4. split; auto. split; [eapply smem_pl; [| |exact R4]; auto|eapply same_mem_trans; eauto].
        + assert (HM : home (a_map a) tP2 s = Ext) by now apply home_extern. rewrite HM.
          destruct (s_attach_es_ok cf tops TOK st3 a' _ _ i R3) as (st4 & E4 & R4 & M4).
          { exists s, t. auto. }
          { apply upd_same. }
          exists st4. split; auto. split; [eapply smem_pl; [| |exact R4]; auto|eapply same_mem_trans; eauto]. }
    destruct ST4 as (st4 & E4 & R4 & M4). rewrite E4. cbn [obind]. clear E4.
    destruct k as [|k].
    { exists st4. cbn [s_fields stop_s stop_t]. split; auto. }
    cbn [s_fields stop_s stop_t]. fold tP2.
    unfold t_target, s_when. destruct (N.eqb_spec t 0) as [->|T0]; cbn [negb].
    - exists st4. auto.
    - rewrite virt_read by auto. destruct (readable (a_map a) tP2 t) eqn:RD; cbn [negb].
      + assert (HM : home (a_map a) tP2 t = Int t) by now apply home_int. rewrite HM.
        destruct (s_attach_it_ok cf tops TOK st4 a' _ _ t s i R4 EM' T0) as (st5 & E5 & R5 & M5).
        { rewrite DM. now apply (readable_some _ tP2). }
        { apply upd_same. }
        exists st5. split; auto. split; [eapply smem_pl; [| |exact R5]; auto; intros x; symmetry; apply UU|eapply same_mem_trans; eauto].
      + assert (HM : home (a_map a) tP2 t = Ext) by now apply home_extern. rewrite HM.
        destruct (s_attach_et_ok cf tops TOK st4 a' _ _ i R4) as (st5 & E5 & R5 & M5).
        { exists s, t. auto. }
        { apply upd_same. }
        exists st5. split; auto. split; [eapply smem_pl; [| |exact R5]; auto; intros x; symmetry; apply UU|eapply same_mem_trans; eauto].
  Qed.

  Lemma m_relink st a sP tP i os ot s t : smem cf st a sP tP -> a_map a i = Some (os, ot) -> lone a sP tP i ->
    sP i = home (a_map a) tP os -> tP i = home (a_map a) tP ot ->
    exists st', s_relink tops st i os ot s t = Val st' /\
      smem cf st' (a_update a i s t) (upd sP i (home (a_map a) (upd tP i Out) s)) (upd tP i (home (a_map a) (upd tP i Out) t)) /\
      same_mem st st'.
  Proof. intros R EM L PS PT. rewrite <- s_stop_relink. exact (m_stop st a sP tP i os ot s t 6 R EM L PS PT). Qed.

  Lemma m_update st a sP tP i os ot s t : smem cf st a sP tP -> a_map a i = Some (os, ot) -> readable (a_map a) tP i = true ->
    lone a sP tP i -> sP i = home (a_map a) tP os -> tP i = home (a_map a) tP ot ->
    exists st', smem cf st' (a_update a i s t) (upd sP i (home (a_map a) (upd tP i Out) s)) (upd tP i (home (a_map a) (upd tP i Out) t)) /\
      same_mem st st' /\
      calls_once (fun H h x => s_update cf tops h [i] [i; s; t] st x) st' (mkLink i os ot) (mkLink i s t).
  Proof.
    intros R EM RD L PS PT. destruct (m_relink st a sP tP i os ot s t R EM L PS PT) as (st' & E & R' & M).
    exists st'. split; auto. split; auto. intros H h x. unfold s_update. change (qget [i] 0) with (Val i).
    change (qget [i; s; t] 1) with (Val s). change (qget [i; s; t] 2) with (Val t). cbn [obind].
    rewrite (m_get _ _ _ _ i R). cbn [obind]. unfold seen. rewrite RD, EM. cbn [olink l_source l_target].
    rewrite E. cbn [obind]. destruct (h x (mkLink i os ot) (mkLink i s t)). reflexivity.
  Qed.

  Lemma m_none st a sP tP i : smem cf st a sP tP -> readable (a_map a) tP i = false ->
    (forall s t, fails_with (fun H h x => s_update cf tops h [i] [i; s; t] st x) st (NotExists i)) /\
    fails_with (fun H h x => s_delete cf tops lops h [i] st x) st (NotExists i).
  Proof.
    intros R RD. pose proof (m_get _ _ _ _ i R) as G. unfold seen in G. rewrite RD in G. cbn [olink] in G. split.
    - intros s t H h x. unfold s_update. change (qget [i] 0) with (Val i). change (qget [i; s; t] 1) with (Val s).
      change (qget [i; s; t] 2) with (Val t). cbn [obind]. now rewrite G.
    - intros H h x. unfold s_delete. change (qget [i] 0) with (Val i). cbn [obind]. now rewrite G.
  Qed.

  (** ** resolve_danglind_internal, up to any point *)
  Lemma m_users_s st a sP tP i : smem cf st a sP tP -> readable (a_map a) tP i = true ->
    exists u, users_s cf st i = Val u /\ NoDup (map l_index u) /\
      (forall k, In k u -> sP (l_index k) = Int i /\ l_index k <> i) /\
      (forall x, SplitWrites.moved i sP x = exted (map l_index u) sP x).
  Proof.
    intros R RD. pose proof (m_range _ _ _ _ _ R RD) as IR.
    destruct (s_is_walk _ _ _ _ _ i R) as (U & ND & IN & EA & CO); [lia|lia|].
    assert (E1 : s_each_iter cf st [c_any cf; i; c_any cf] = Val (map (link_of (s_data st)) U)).
    { unfold s_each_iter, s_count, s_each, s_each3. rewrite (ok_ipart _ CF), (ok_spart _ CF), (ok_tpart _ CF).
      rewrite qget_0, qget_1, qget_2. cbn [obind].
      rewrite !(m_virtual _ _ _ _ _ R). cbn [obind]. rewrite N.eqb_refl.
      pose proof (sm_iend _ _ _ _ _ R). pose proof (ok_iend _ CF).
      destruct (N.eqb_spec i (c_any cf)); [lia|]. cbn [andb]. rewrite virt_read, RD by lia. cbn [negb].
      rewrite CO. cbn [obind]. rewrite EA. cbn [obind]. rewrite run_collect. reflexivity. }
    unfold users_s. rewrite E1. cbn [obind]. eexists. split; [reflexivity|].
    split; [now apply nodup_map_filter|]. split.
    - intros k K. apply filter_index in K as [K P]. split; [now apply IN|]. destruct (N.eqb_spec (l_index k) i); [discriminate|auto].
    - apply exted_moved; auto.
  Qed.
  Lemma m_users_t st a sP tP i : smem cf st a sP tP -> readable (a_map a) tP i = true ->
    exists u, users_t cf st i = Val u /\ NoDup (map l_index u) /\
      (forall k, In k u -> tP (l_index k) = Int i /\ l_index k <> i) /\
      (forall x, SplitWrites.moved i tP x = exted (map l_index u) tP x).
  Proof.
    intros R RD. pose proof (m_range _ _ _ _ _ R RD) as IR.
    destruct (s_it_walk _ _ _ _ _ i R) as (U & ND & IN & EA & CO); [lia|lia|].
    assert (E1 : s_each_iter cf st [c_any cf; c_any cf; i] = Val (map (link_of (s_data st)) U)).
    { unfold s_each_iter, s_count, s_each, s_each3. rewrite (ok_ipart _ CF), (ok_spart _ CF), (ok_tpart _ CF).
      rewrite qget_0, qget_1, qget_2. cbn [obind].
      rewrite !(m_virtual _ _ _ _ _ R). cbn [obind]. rewrite N.eqb_refl.
      pose proof (sm_iend _ _ _ _ _ R). pose proof (ok_iend _ CF).
      destruct (N.eqb_spec i (c_any cf)); [lia|]. cbn [andb]. rewrite virt_read, RD by lia. cbn [negb].
      rewrite CO. cbn [obind]. rewrite EA. cbn [obind]. rewrite run_collect. reflexivity. }
    unfold users_t. rewrite E1. cbn [obind]. set (f1 := fun k => negb (l_index k =? i)).
    assert (FF : filter (fun k => negb (link_is_full k)) (filter f1 (map (link_of (s_data st)) U)) =
                 filter f1 (map (link_of (s_data st)) U)).
    { assert (GEN : forall L, (forall k, In k L -> l_target k = i) ->
        filter (fun k => negb (link_is_full k)) (filter f1 L) = filter f1 L).
      { induction L as [|k L IH]; intros HT; [reflexivity|]. cbn [filter].
        assert (T : l_target k = i) by (apply HT; now left). change (f1 k) with (negb (l_index k =? i)).
        destruct (N.eqb_spec (l_index k) i) as [EI|NE]; cbn [negb].
        - apply IH. intros; apply HT; now right.
        - cbn [filter]. unfold link_is_full at 1. rewrite T. destruct (N.eqb_spec (l_index k) i); [contradiction|].
          rewrite andb_false_r. cbn [negb]. f_equal. apply IH. intros; apply HT; now right. }
      apply GEN. intros k K. apply in_map_iff in K as (y & <- & K). apply IN in K.
      pose proof (sm_tp _ _ _ _ _ R y) as O. rewrite K in O. destruct O as ((s & O) & _).
      unfold link_of. rewrite (sm_data _ _ _ _ _ R _ _ O). reflexivity. }
    rewrite FF. eexists. split; [reflexivity|]. split; [now apply nodup_map_filter|]. split.
    - intros k K. apply filter_index in K as [K P]. split; [now apply IN|]. unfold f1 in P. destruct (N.eqb_spec (l_index k) i); [discriminate|auto].
    - apply exted_moved; auto.
  Qed.

  (** While users of [i] are taken out of its trees one by one, none of those left has the pair
      of another. *)
  Lemma m_move_s a i tP : forall l st sP, smem cf st a sP tP -> (forall k, In k l -> tree_lone (a_map a) sP (l_index k)) ->
    NoDup (map l_index l) -> (forall k, In k l -> sP (l_index k) = Int i) ->
    exists st', s_for l (move_s tops i) st = Val st' /\ smem cf st' a (exted (map l_index l) sP) tP /\ same_mem st st'.
  Proof.
    induction l as [|k l IH]; intros st sP R AD ND HI; cbn [s_for].
    - exists st. split; auto. split; [|apply same_mem_refl]. eapply smem_pl; [| |exact R]; auto.
    - cbn [map] in ND. apply NoDup_cons_iff in ND as [NI ND].
      assert (K : sP (l_index k) = Int i) by (apply HI; now left).
      destruct (m_detach_is _ _ _ _ i _ R (AD k (or_introl eq_refl)) K) as (st1 & E1 & R1 & M1).
      destruct (s_attach_es_ok cf tops TOK _ _ _ _ (l_index k) R1) as (st2 & E2 & R2 & M2).
      { apply (sp_ok_psrc a sP); [apply R|congruence]. }
      { apply upd_same. }
      unfold move_s at 1. rewrite E1. cbn [obind]. rewrite E2. cbn [obind].
      assert (NE : forall k', In k' l -> l_index k' <> l_index k) by (intros k' K' E; apply NI; rewrite <- E; now apply in_map).
      destruct (IH _ _ R2) as (st3 & E3 & R3 & M3); auto.
      { intros k' K' _ j J1 J2. pose proof (HI k' (or_intror K')) as HK. unfold upd in J1.
        destruct (N.eqb_spec (l_index k') (l_index k)) as [E'|_]; [now apply NE in E'|].
        destruct (N.eqb_spec j (l_index k)); [congruence|].
        apply (AD k' (or_intror K')); auto. congruence. }
      { intros k' K'. rewrite !upd_other by auto. apply HI. now right. }
      exists st3. split; auto. split; [|eapply same_mem_trans; [exact M1|eapply same_mem_trans; eauto]].
      eapply smem_pl; [| |exact R3]; auto. intros x. unfold exted. cbn [map].
      destruct (in_dec N.eq_dec x (l_index k :: map l_index l)) as [J|J];
        destruct (in_dec N.eq_dec x (map l_index l)) as [J'|J']; auto.
      + destruct J as [<-|J]; [|contradiction]. now rewrite upd_same.
      + exfalso. apply J. now right.
      + rewrite !upd_other; auto; intros ->; apply J; now left.
  Qed.
  Lemma m_move_t a i sP : forall l st tP, smem cf st a sP tP -> (forall k, In k l -> tree_lone (a_map a) tP (l_index k)) ->
    NoDup (map l_index l) -> (forall k, In k l -> tP (l_index k) = Int i) ->
    exists st', s_for l (move_t tops i) st = Val st' /\ smem cf st' a sP (exted (map l_index l) tP) /\ same_mem st st'.
  Proof.
    induction l as [|k l IH]; intros st tP R AD ND HI; cbn [s_for].
    - exists st. split; auto. split; [|apply same_mem_refl]. eapply smem_pl; [| |exact R]; auto.
    - cbn [map] in ND. apply NoDup_cons_iff in ND as [NI ND].
      assert (K : tP (l_index k) = Int i) by (apply HI; now left).
      destruct (m_detach_it _ _ _ _ i _ R (AD k (or_introl eq_refl)) K) as (st1 & E1 & R1 & M1).
      destruct (s_attach_et_ok cf tops TOK _ _ _ _ (l_index k) R1) as (st2 & E2 & R2 & M2).
      { apply (tp_ok_ptgt a tP); [apply R|congruence]. }
      { apply upd_same. }
      unfold move_t at 1. rewrite E1. cbn [obind]. rewrite E2. cbn [obind].
      assert (NE : forall k', In k' l -> l_index k' <> l_index k) by (intros k' K' E; apply NI; rewrite <- E; now apply in_map).
      destruct (IH _ _ R2) as (st3 & E3 & R3 & M3); auto.
      { intros k' K' _ j J1 J2. pose proof (HI k' (or_intror K')) as HK. unfold upd in J1.
        destruct (N.eqb_spec (l_index k') (l_index k)) as [E'|_]; [now apply NE in E'|].
        destruct (N.eqb_spec j (l_index k)); [congruence|].
        apply (AD k' (or_intror K')); auto. congruence. }
      { intros k' K'. rewrite !upd_other by auto. apply HI. now right. }
      exists st3. split; auto. split; [|eapply same_mem_trans; [exact M1|eapply same_mem_trans; eauto]].
      eapply smem_pl; [| |exact R3]; auto. intros x. unfold exted. cbn [map].
      destruct (in_dec N.eq_dec x (l_index k :: map l_index l)) as [J|J];
        destruct (in_dec N.eq_dec x (map l_index l)) as [J'|J']; auto.
      + destruct J as [<-|J]; [|contradiction]. now rewrite upd_same.
      + exfalso. apply J. now right.
      + rewrite !upd_other; auto; intros ->; apply J; now left.
  Qed.

  Lemma moved_readable D tP i v : readable D (SplitWrites.moved i tP) v = readable D tP v.
  Proof.
    unfold readable. destruct (D v) as [[s t]|]; auto. f_equal. unfold SplitWrites.moved.
    destruct (v =? i); auto. destruct (tP v) as [| |w]; auto. destruct (w =? i); auto.
  Qed.
  Lemma moved_home D tP i v : home D (SplitWrites.moved i tP) v = home D tP v.
  Proof. unfold home. now rewrite moved_readable. Qed.
  Lemma moved_self i (pl : N -> place) : SplitWrites.moved i pl i = pl i.
  Proof. unfold SplitWrites.moved. now rewrite N.eqb_refl. Qed.
  Lemma moved_lone st a sP tP i os ot : smem cf st a sP tP -> a_map a i = Some (os, ot) -> readable (a_map a) tP i = true ->
    sP i = home (a_map a) tP os -> tP i = home (a_map a) tP ot -> lone a sP tP i ->
    lone a (SplitWrites.moved i sP) (SplitWrites.moved i tP) i.
  Proof.
    intros R EM RD PS PT [LS LT]. split; unfold tree_lone; rewrite moved_self; intros O j J1 J2; unfold SplitWrites.moved in J1;
      destruct (N.eqb_spec j i) as [|NE]; auto.
    - destruct (sP j) as [| |w] eqn:E; try (apply LS; congruence).
      destruct (N.eqb_spec w i) as [->|]; [|apply LS; congruence].
      pose proof (sm_sp _ _ _ _ _ R j) as Q. rewrite E in Q. destruct Q as ((t & Q) & _).
      rewrite Q, EM in J2. injection J2 as <- _. rewrite PS in J1. symmetry in J1. apply home_extern in J1. destruct J1; congruence.
    - destruct (tP j) as [| |w] eqn:E; try (apply LT; congruence).
      destruct (N.eqb_spec w i) as [->|]; [|apply LT; congruence].
      pose proof (sm_tp _ _ _ _ _ R j) as Q. rewrite E in Q. destruct Q as ((t & Q) & _).
      rewrite Q, EM in J2. injection J2 as _ <-. rewrite PT in J1. symmetry in J1. apply home_extern in J1. destruct J1; congruence.
  Qed.

  (** The users of [i] can be moved away. *)
  Definition users_lone (D : stored) (sP tP : N -> place) (i : N) : Prop := forall x, x <> i ->
    (sP x = Int i -> tree_lone D sP x) /\ (tP x = Int i -> tree_lone D tP x).

  (** Where everything is when the process stops inside resolve_danglind_internal. *)
  Definition places_at (st : sst) (i : N) (p : res_point) (sP tP sP' tP' : N -> place) : Prop :=
    exists u, users_s cf st i = Val u /\
    match p with
    | InSources n => (forall x, sP' x = exted (map l_index (firstn n u)) sP x) /\ (forall x, tP' x = tP x)
    | MidSource n y => (forall x, sP' x = upd (exted (map l_index (firstn n u)) sP) y Out x) /\ (forall x, tP' x = tP x)
    | InTargets n => exists st0 w, s_for u (move_s tops i) st = Val st0 /\ users_t cf st0 i = Val w /\
        (forall x, sP' x = SplitWrites.moved i sP x) /\ (forall x, tP' x = exted (map l_index (firstn n w)) tP x)
    | MidTarget n y => exists st0 w, s_for u (move_s tops i) st = Val st0 /\ users_t cf st0 i = Val w /\
        (forall x, sP' x = SplitWrites.moved i sP x) /\ (forall x, tP' x = upd (exted (map l_index (firstn n w)) tP) y Out x)
    end.

  Lemma m_resolve_at st a sP tP sP' tP' i p st' : smem cf st a sP tP -> readable (a_map a) tP i = true ->
    users_lone (a_map a) sP tP i -> resolve_at cf tops st i p st' -> places_at st i p sP tP sP' tP' -> smem cf st' a sP' tP'.
  Proof.
    intros R RD UL (u & EU & P) (u1 & EU1 & Q). assert (u1 = u) as -> by congruence. clear EU1.
    destruct (m_users_s _ _ _ _ i R RD) as (u1 & EU1 & ND & IU & MV). assert (u1 = u) as -> by congruence. clear EU1.
    assert (FS : forall n, exists st1, s_for (firstn n u) (move_s tops i) st = Val st1 /\
        smem cf st1 a (exted (map l_index (firstn n u)) sP) tP).
    { intros n. destruct (m_move_s a i tP (firstn n u) st sP R) as (st1 & E & R1 & _).
      - intros k K. apply in_firstn in K. destruct (IU _ K) as [X NE]. now apply (UL _ NE).
      - now apply nodup_firstn.
      - intros k K. apply IU. eapply in_firstn; eauto.
      - exists st1. split; [exact E|exact R1]. }
    assert (FT : forall st0 w n, s_for u (move_s tops i) st = Val st0 -> users_t cf st0 i = Val w ->
        NoDup (map l_index w) /\ (forall k, In k w -> tP (l_index k) = Int i /\ l_index k <> i) /\
        smem cf st0 a (SplitWrites.moved i sP) tP /\
        exists st1, s_for (firstn n w) (move_t tops i) st0 = Val st1 /\
          smem cf st1 a (SplitWrites.moved i sP) (exted (map l_index (firstn n w)) tP)).
    { intros st0 w n E0 EW. destruct (FS (length u)) as (st0' & E0' & R0). rewrite firstn_all in E0', R0.
      assert (st0' = st0) as -> by congruence.
      apply (smem_pl cf _ _ _ _ (SplitWrites.moved i sP) tP) in R0; auto.
      destruct (m_users_t _ _ _ _ i R0 RD) as (w1 & EW1 & NDW & IW & MW). assert (w1 = w) as -> by congruence.
      do 3 (split; auto). destruct (m_move_t a i _ (firstn n w) st0 tP R0) as (st1 & E & R1 & _).
      - intros k K. apply in_firstn in K. destruct (IW _ K) as [X NE]. now apply (UL _ NE).
      - now apply nodup_firstn.
      - intros k K. apply IW. eapply in_firstn; eauto.
      - exists st1. split; [exact E|exact R1]. }
    destruct p as [n|n x|n|n x].
    - destruct (FS n) as (st1 & E & R1). assert (st1 = st') as <- by congruence. destruct Q. eapply smem_pl; [| |exact R1]; auto.
    - destruct P as (st1 & k & E & NK & -> & ED). destruct (FS n) as (st1' & E' & R1). assert (st1' = st1) as -> by congruence.
      pose proof (nth_error_In _ _ NK) as IK. destruct (IU _ IK) as [X NE].
      assert (XN : exted (map l_index (firstn n u)) sP (l_index k) = Int i)
        by (rewrite exted_other by (eapply nth_firstn_not; eauto); exact X).
      destruct (m_detach_is _ _ _ _ i (l_index k) R1) as (st2 & E2 & R2 & _); auto.
      { intros _ j J1 J2. rewrite XN in J1. unfold exted in J1. destruct (in_dec N.eq_dec j _); [discriminate|].
        apply (proj1 (UL _ NE) X); congruence. }
      assert (st2 = st') as <- by congruence. destruct Q. eapply smem_pl; [| |exact R2]; auto.
    - destruct P as (st0 & w & E0 & EW & E). destruct Q as (st0' & w' & E0' & EW' & Q1 & Q2).
      assert (st0' = st0) as -> by congruence. assert (w' = w) as -> by congruence.
      destruct (FT _ _ n E0 EW) as (NDW & IW & R0 & st1 & E1 & R1). assert (st1 = st') as -> by congruence.
      eapply smem_pl; [| |exact R1]; auto.
    - destruct P as (st0 & w & E0 & EW & st1 & k & E & NK & -> & ED). destruct Q as (st0' & w' & E0' & EW' & Q1 & Q2).
      assert (st0' = st0) as -> by congruence. assert (w' = w) as -> by congruence.
      destruct (FT _ _ n E0 EW) as (NDW & IW & R0 & st1' & E1 & R1). assert (st1' = st1) as -> by congruence.
      pose proof (nth_error_In _ _ NK) as IK. destruct (IW _ IK) as [X NE].
      assert (XN : exted (map l_index (firstn n w)) tP (l_index k) = Int i)
        by (rewrite exted_other by (eapply nth_firstn_not; eauto); exact X).
      destruct (m_detach_it _ _ _ _ i (l_index k) R1) as (st2 & E2 & R2 & _); auto.
      { intros _ j J1 J2. rewrite XN in J1. unfold exted in J1. destruct (in_dec N.eq_dec j _); [discriminate|].
        apply (proj2 (UL _ NE) X); congruence. }
      assert (st2 = st') as <- by congruence. eapply smem_pl; [| |exact R2]; auto.
  Qed.

  Lemma m_resolve_internal st a sP tP i : smem cf st a sP tP -> readable (a_map a) tP i = true -> users_lone (a_map a) sP tP i ->
    exists st', s_resolve_internal cf tops st i = Val st' /\
      smem cf st' a (SplitWrites.moved i sP) (SplitWrites.moved i tP) /\ same_mem st st'.
  Proof.
    intros R RD UL.
    destruct (m_users_s _ _ _ _ i R RD) as (u & EU & ND & IU & MV).
    destruct (m_move_s a i tP u st sP R) as (st1 & E1 & R1 & M1); auto.
    { intros k K. destruct (IU _ K) as [X NE]. now apply (UL _ NE). }
    { intros k K. now apply IU. }
    apply (smem_pl cf _ _ _ _ (SplitWrites.moved i sP) tP) in R1; auto.
    destruct (m_users_t _ _ _ _ i R1 RD) as (w & EW & NDW & IW & MW).
    destruct (m_move_t a i _ w st1 tP R1) as (st2 & E2 & R2 & M2); auto.
    { intros k K. destruct (IW _ K) as [X NE]. now apply (UL _ NE). }
    { intros k K. now apply IW. }
    exists st2. split; [|split; [eapply smem_pl; [| |exact R2]; auto|eapply same_mem_trans; eauto]].
    unfold s_resolve_internal. unfold users_s in EU. destruct (s_each_iter cf st [c_any cf; i; c_any cf]); try discriminate.
    cbn [obind] in *. injection EU as EU. rewrite EU. change (s_for u _ st) with (s_for u (move_s tops i) st). rewrite E1. cbn [obind].
    unfold users_t in EW. destruct (s_each_iter cf st1 [c_any cf; c_any cf; i]); try discriminate.
    cbn [obind] in *. injection EW as EW. rewrite EW. exact E2.
  Qed.

  (** ** The loop that lowers [allocated] *)
  (** The highest stored link can be read. *)
  Definition capped (D : stored) (tP : N -> place) : Prop :=
    forall l, D l <> None -> (forall k, l < k -> D k = None) -> readable D tP l = true.
  Lemma capped_ext D D' tP : (forall j, D j = D' j) -> capped D tP -> capped D' tP.
  Proof.
    intros E C l L T. rewrite <- (readable_ext D D' tP tP) by auto. apply C; [now rewrite E|]. intros k K. rewrite E. auto.
  Qed.

  Lemma m_top st a sP tP : smem cf st a sP tP -> capped (a_map a) tP -> 1 <= a_top a -> readable (a_map a) tP (a_top a) = false ->
    a_map a (a_top a) = None /\ In (a_top a) (a_free a) /\ (forall x, sP x <> Int (a_top a)) /\ (forall x, tP x <> Int (a_top a)).
  Proof.
    intros R C P RD.
    assert (M : a_map a (a_top a) = None).
    { destruct (a_map a (a_top a)) eqn:M; auto. exfalso. rewrite C in RD; [discriminate|congruence|].
      intros k K. destruct (a_map a k) eqn:MK; auto. assert (X : a_map a k <> None) by congruence.
      apply (sm_dom _ _ _ _ _ R) in X. lia. }
    split; auto. split.
    - destruct (in_dec N.eq_dec (a_top a) (a_free a)) as [|NI]; auto. exfalso.
      assert (K : a_map a (a_top a) <> None) by (apply (sm_dom _ _ _ _ _ R); split; [lia|auto]). congruence.
    - split; intros x K.
      + pose proof (sm_sp _ _ _ _ _ R x) as O. rewrite K in O. tauto.
      + pose proof (sm_tp _ _ _ _ _ R x) as O. rewrite K in O. tauto.
  Qed.

  Lemma m_trim : forall n fuel st a sP tP,
    smem cf st a sP tP -> capped (a_map a) tP -> N.to_nat (a_top a) = n -> (n < fuel)%nat ->
    exists st', s_trim lops fuel st = Val st' /\
      smem cf st' (mkA (top_of (a_map a) n) (filter (fun x => x <? top_of (a_map a) n) (a_free a)) (a_map a)) sP tP /\ same_mem st st'.
  Proof.
    induction n as [|n IH]; intros fuel st a sP tP R C TN F; destruct fuel as [|fuel]; try lia; cbn [s_trim].
    - rewrite (s_header_ok _ _ _ _ _ R). cbn [obind]. rewrite (sm_alloc _ _ _ _ _ R).
      assert (Z : a_top a = 0) by lia. rewrite Z. cbn [N.ltb N.compare obind negb].
      exists st. split; [reflexivity|]. split; [|apply same_mem_refl]. cbn [top_of].
      eapply smem_ext; [| | |exact R]; auto. cbn [a_free].
      destruct (a_free a) as [|x l] eqn:EF; [reflexivity|]. exfalso.
      assert (K : In x (a_free a)) by (rewrite EF; now left). apply (sm_free _ _ _ _ _ R) in K. lia.
    - rewrite (s_header_ok _ _ _ _ _ R). cbn [obind]. rewrite (sm_alloc _ _ _ _ _ R).
      assert (TE : a_top a = N.of_nat (S n)) by lia.
      destruct (N.ltb_spec 0 (a_top a)) as [_|]; [|lia].
      rewrite (m_unused _ _ _ _ _ R) by lia. cbn [obind top_of]. rewrite <- TE.
      destruct (readable (a_map a) tP (a_top a)) eqn:RD; cbn [negb].
      + exists st. split; [reflexivity|]. split; [|apply same_mem_refl].
        destruct (a_map a (a_top a)) as [p|] eqn:EM; [|apply readable_some in RD; contradiction].
        eapply smem_ext; [| | |exact R]; auto. cbn [a_free].
        assert (NI : ~ In (a_top a) (a_free a)) by (apply (sm_dom _ _ _ _ _ R); congruence).
        assert (AL : forall x, In x (a_free a) -> (x <? a_top a) = true).
        { intros x K. apply N.ltb_lt. pose proof (sm_free _ _ _ _ _ R _ K).
          assert (x <> a_top a) by congruence. lia. }
        clear -AL. induction (a_free a) as [|x l IH]; simpl; [reflexivity|].
        rewrite (AL x) by now left. rewrite IH; [reflexivity|]. intros; apply AL; now right.
      + destruct (m_top _ _ _ _ R C) as (EM & HI & NS & NT); [lia|auto|]. rewrite EM.
        destruct (s_unused_detach_ok cf lops LOK _ _ _ _ (a_top a) R HI) as (st1 & E1 & R1 & M1).
        rewrite E1. cbn [obind]. rewrite csub_ok by lia. cbn [obind].
        pose proof (s_lower_ok cf st1 _ _ _ R1) as R2. cbn [a_top a_free a_map] in R2.
        specialize (R2 ltac:(lia) (upd_same _ _ _ _) NS NT).
        match type of R2 with smem _ _ ?b _ _ => set (a2 := b) in * end.
        assert (MM : forall j, a_map a2 j = a_map a j).
        { intros j. unfold a2. cbn [a_map]. unfold upd. destruct (N.eqb_spec j (a_top a)) as [->|]; auto. }
        destruct (IH fuel _ a2 _ _ R2) as (st' & E & R' & M').
        { eapply capped_ext; [|exact C]. auto. }
        { unfold a2. cbn [a_top]. lia. }
        { lia. }
        exists st'. split; auto. split.
        * assert (TT : top_of (a_map a2) n = top_of (a_map a) n) by (apply top_of_ext; auto).
          rewrite TT in R'. eapply smem_ext; [| | |exact R']; cbn [a_top a_free a_map]; auto.
          unfold a2. cbn [a_free].
          assert (B : top_of (a_map a) n < a_top a). { pose proof (top_of_le (a_map a) n). lia. }
          symmetry. apply filter_lremove. apply N.ltb_ge. lia.
        * eapply same_mem_trans; [exact M1|exact M'].
  Qed.

  Lemma m_trimmed sP tP : forall n st a st', smem cf st a sP tP -> capped (a_map a) tP -> s_trimmed lops n st st' ->
    exists a', smem cf st' a' sP tP /\ (forall j, a_map a' j = a_map a j) /\ a_top a' <= a_top a.
  Proof.
    induction n as [|n IH]; intros st a st' R C T.
    { cbn in T. subst. exists a. split; [exact R|]. split; auto. lia. }
    destruct T as (P & EU & st1 & ED & T). pose proof (sm_alloc _ _ _ _ _ R) as HA. rewrite HA in *.
    rewrite (m_unused _ _ _ _ _ R) in EU by lia.
    destruct (m_top _ _ _ _ R C) as (M & FI & NS & NT); [lia|destruct (readable _ _ _); [discriminate|reflexivity]|].
    destruct (s_unused_detach_ok cf lops LOK st a _ _ (a_top a) R FI) as (st1' & ED' & R1 & _).
    assert (st1' = st1) as -> by congruence.
    pose proof (s_lower_ok cf st1 _ _ _ R1) as R2. cbn [a_top a_free a_map] in R2.
    specialize (R2 ltac:(lia) (upd_same _ _ _ _) NS NT).
    match type of R2 with smem _ _ ?b _ _ => set (a2 := b) in * end.
    assert (MM : forall j, a_map a2 j = a_map a j).
    { intros j. unfold a2. cbn [a_map]. unfold upd. destruct (N.eqb_spec j (a_top a)) as [->|]; auto. }
    destruct (IH _ a2 st' R2) as (a' & R3 & EM & LE); auto.
    { eapply capped_ext; [|exact C]. auto. }
    exists a'. split; [exact R3|]. split; [intros j; now rewrite EM|]. unfold a2 in LE. cbn [a_top] in LE. lia.
  Qed.

  (** ** delete_links *)
  Record may_delete (D : stored) (sP tP : N -> place) (i os ot : N) : Prop := {
    md_pair : D i = Some (os, ot);
    md_read : readable D tP i = true;
    md_s : sP i = home D tP os;
    md_t : tP i = home D tP ot;
    md_lone : tree_lone D sP i /\ tree_lone D tP i;
    md_users : users_lone D sP tP i;
    md_cap : (forall k, i < k -> D k = None) -> capped (upd D i None) tP
  }.

  Lemma m_emptied st a sP tP i os ot : smem cf st a sP tP -> may_delete (a_map a) sP tP i os ot ->
    exists st0 st1, s_resolve_internal cf tops st i = Val st0 /\ same_mem st st0 /\
      smem cf st0 a (SplitWrites.moved i sP) (SplitWrites.moved i tP) /\
      s_relink tops st0 i os ot 0 0 = Val st1 /\ same_mem st0 st1 /\
      smem cf st1 (a_update a i 0 0) (upd (SplitWrites.moved i sP) i Out) (upd (SplitWrites.moved i tP) i Out) /\
      (forall x, upd (SplitWrites.moved i sP) i Out x <> Int i) /\ (forall x, upd (SplitWrites.moved i tP) i Out x <> Int i).
  Proof.
    intros R [EM RD PS PT L UL CP].
    destruct (m_resolve_internal _ _ _ _ i R RD UL) as (st0 & E0 & R0 & M0).
    destruct (m_relink st0 a _ _ i os ot 0 0 R0 EM) as (st1 & E1 & R1 & M1).
    { eapply moved_lone; eauto. }
    { now rewrite moved_self, moved_home. }
    { now rewrite moved_self, moved_home. }
    exists st0, st1. do 6 (split; auto).
    split; intros x; unfold upd, SplitWrites.moved; (destruct (x =? i); [discriminate|]).
    - destruct (sP x) as [| |v]; try discriminate. destruct (N.eqb_spec v i); congruence.
    - destruct (tP x) as [| |v]; try discriminate. destruct (N.eqb_spec v i); congruence.
  Qed.

  (** The pair of the deleted link is gone, and the highest of those left can still be read. *)
  Lemma moved_capped D tP i : capped (upd D i None) tP -> capped (upd D i None) (upd (SplitWrites.moved i tP) i Out).
  Proof.
    intros C l L T. specialize (C l L T). destruct (N.eq_dec l i) as [->|NE]; [rewrite upd_same in L; congruence|].
    unfold readable in *. rewrite upd_other in * by auto. rewrite upd_other by auto. destruct (D l) as [[s t]|]; auto.
    unfold SplitWrites.moved. destruct (l =? i); auto. destruct (tP l) as [| |v]; auto. destruct (v =? i); auto.
  Qed.

  Lemma m_above st a sP tP i : smem cf st a sP tP -> i = a_top a -> forall k, i < k -> a_map a k = None.
  Proof.
    intros R -> k K. destruct (a_map a k) eqn:M; auto. assert (X : a_map a k <> None) by congruence.
    apply (sm_dom _ _ _ _ _ R) in X. lia.
  Qed.
  Lemma m_lowered st1 a sP tP i : smem cf st1 (a_update a i 0 0) sP tP -> 1 <= i -> i = a_top a ->
    (forall x, sP x <> Int i) -> (forall x, tP x <> Int i) ->
    smem cf (s_set_alloc st1 (a_top a - 1)) (mkA (a_top a - 1) (a_free a) (upd (a_map a) i None)) sP tP.
  Proof.
    intros R1 I1 Ei NS NT. pose proof (s_lower_ok cf _ _ _ _ R1) as R2. cbn [a_top a_update a_free a_map] in R2. rewrite <- Ei in *.
    specialize (R2 I1 (upd_same _ _ _ _) NS NT). eapply smem_ext; [| | |exact R2]; auto.
    intros j. cbn [a_map]. unfold upd. destruct (j =? i); reflexivity.
  Qed.

  Lemma m_delete st a sP tP i os ot : smem cf st a sP tP -> may_delete (a_map a) sP tP i os ot ->
    exists st', smem cf st' (a_delete a i) (upd (SplitWrites.moved i sP) i Out) (upd (SplitWrites.moved i tP) i Out) /\ same_mem st st' /\
      calls_once (fun H h x => s_delete cf tops lops h [i] st x) st' (mkLink i os ot) nothing.
  Proof.
    intros R MD. pose proof MD as [EM RD PS PT L UL CP].
    destruct (sm_range _ _ _ _ _ _ _ R EM) as [IR NF].
    destruct (m_emptied _ _ _ _ _ _ _ R MD) as (st0 & st1 & E0 & M0 & R0 & E1 & M1 & R1 & NS & NT).
    assert (RED : forall st3,
      match i ?= a_top a with
      | Lt => s_unused_attach lops st1 i
      | Eq => let* a1 := csub (a_top a) 1 in s_trim lops (s_fuel st1) (s_set_alloc st1 a1)
      | Gt => Panic
      end = Val st3 ->
      calls_once (fun H h x => s_delete cf tops lops h [i] st x) st3 (mkLink i os ot) nothing).
    { intros st3 E3 H h x. unfold s_delete. change (qget [i] 0) with (Val i). cbn [obind].
      rewrite (m_get _ _ _ _ i R). cbn [obind]. unfold seen at 1. rewrite RD, EM. cbn [olink]. rewrite E0.
      cbn [obind]. unfold s_update. rewrite qget_0, qget_1, qget_2. cbn [obind].
      rewrite (m_get _ _ _ _ i R0). cbn [obind]. unfold seen. rewrite moved_readable, RD, EM. cbn [olink l_source l_target].
      rewrite E1. cbn [obind].
      rewrite (s_header_ok _ _ _ _ _ R1). cbn [obind].
      rewrite (sm_alloc _ _ _ _ _ R1). cbn [a_top a_update]. rewrite E3. cbn [obind].
      destruct (h x (mkLink i os ot) nothing); reflexivity. }
    assert (MM : same_mem st st1) by (eapply same_mem_trans; eauto).
    destruct (N.compare_spec i (a_top a)) as [Ei|Li|Gi]; [| |lia].
    - rewrite csub_ok in RED by lia. cbn [obind] in RED.
      pose proof (m_lowered _ _ _ _ _ R1 ltac:(lia) Ei NS NT) as R2.
      destruct (m_trim (N.to_nat (a_top a - 1)) (s_fuel st1) _ _ _ _ R2) as (st3 & E3 & R3 & M3).
      { cbn [a_map]. apply moved_capped, CP. exact (m_above _ _ _ _ _ R Ei). }
      { reflexivity. }
      { unfold s_fuel. rewrite (sm_alloc _ _ _ _ _ R1). cbn [a_top a_update]. lia. }
      exists st3. split; [|split; [eapply same_mem_trans; eauto|now apply RED]].
      unfold a_delete. destruct (N.ltb_spec i (a_top a)); [lia|]. cbn [a_top a_free a_map] in R3.
      assert (ET : top_of (upd (a_map a) i None) (N.to_nat (a_top a)) = top_of (upd (a_map a) i None) (N.to_nat (a_top a - 1))).
      { replace (N.to_nat (a_top a)) with (S (N.to_nat (a_top a - 1))) by lia. cbn [top_of].
        replace (N.of_nat (S (N.to_nat (a_top a - 1)))) with i by lia. now rewrite upd_same. }
      cbv zeta. rewrite ET. eapply smem_ext; [| | |exact R3]; cbn [a_top a_free a_map]; auto.
    - destruct (s_unused_attach_ok cf lops LOK _ _ _ _ i R1) as (st3 & E3 & R3 & M3); auto.
      { cbn [a_map a_update]. apply upd_same. }
      exists st3. split; [|split; [eapply same_mem_trans; eauto|now apply RED]].
      unfold a_delete. destruct (N.ltb_spec i (a_top a)); [|lia].
      eapply smem_ext; [| | |exact R3]; cbn [a_top a_free a_map a_update]; auto.
      intros j. unfold upd. destruct (j =? i); reflexivity.
  Qed.

  (** The pairs and places when the process stops inside delete_links. *)
  Definition del_places (st : sst) (D : stored) (i os ot : N) (p : sdel_point) (sP tP sP' tP' : N -> place) : Prop :=
    match p with
    | Resolving r => places_at st i r sP tP sP' tP'
    | Emptying k => (forall x, sP' x = stop_s D (SplitWrites.moved i sP) (SplitWrites.moved i tP) i 0 k x) /\
                    (forall x, tP' x = stop_t D (SplitWrites.moved i tP) i 0 k x)
    | _ => (forall x, sP' x = upd (SplitWrites.moved i sP) i Out x) /\ (forall x, tP' x = upd (SplitWrites.moved i tP) i Out x)
    end.
  Definition del_pair (os ot : N) (p : sdel_point) : option (N * N) :=
    match p with
    | Resolving _ => Some (os, ot)
    | Emptying k => Some (s_fields k os ot 0 0)
    | _ => None
    end.

  Lemma m_delete_at st a sP tP sP' tP' i os ot p st' : smem cf st a sP tP -> may_delete (a_map a) sP tP i os ot ->
    s_delete_at cf tops lops st i os ot p st' -> del_places st (a_map a) i os ot p sP tP sP' tP' ->
    exists a', smem cf st' a' sP' tP' /\ a_top a' <= a_top a /\ a_map a' i = del_pair os ot p /\
      (forall j, j <> i -> a_map a j <> None -> a_map a' j = a_map a j) /\
      (forall j, a_map a j = None -> a_map a' j = None \/ (a_map a' j = Some (0, 0) /\ exists n, p = SDetaching n)).
  Proof.
    intros R MD AT DP. pose proof MD as [EM RD PS PT L UL CP].
    destruct (sm_range _ _ _ _ _ _ _ R EM) as [IR NF].
    destruct p as [r|k| |n|n]; cbn [s_delete_at del_places del_pair] in *.
    { exists a. split; [eapply m_resolve_at; eauto|]. split; [lia|]. auto. }
    all: destruct (m_emptied _ _ _ _ _ _ _ R MD) as (st0 & st1 & E0 & M0 & R0 & E1 & M1 & R1 & NS & NT).
    all: destruct DP as [DS DT].
    { destruct AT as (st0' & E0' & E). assert (st0' = st0) as -> by congruence.
      destruct (m_stop st0 a _ _ i os ot 0 0 k R0 EM) as (st2 & E2 & R2 & _).
      { eapply moved_lone; eauto. }
      { now rewrite moved_self, moved_home. }
      { now rewrite moved_self, moved_home. }
      assert (st2 = st') as -> by congruence. eexists. split; [eapply smem_pl; [exact DS|exact DT|exact R2]|].
      destruct (s_fields k os ot 0 0) as [x y]. cbn [a_top a_map a_update]. split; [lia|]. split; [apply upd_same|].
      split; intros j J; [intros _; now apply upd_other|]. left. rewrite upd_other; [exact J|]. intros ->. congruence. }
    all: assert (MM : forall j, a_map (a_update a i 0 0) j = upd (a_map a) i (Some (0, 0)) j) by reflexivity.
    { destruct AT as (st0' & st1' & E0' & E1' & LT & EA). assert (st0' = st0) as -> by congruence. assert (st1' = st1) as -> by congruence.
      rewrite (sm_alloc _ _ _ _ _ R1) in LT. cbn [a_top a_update] in LT.
      destruct (s_unused_attach_ok cf lops LOK _ _ _ _ i R1) as (st3 & E3 & R3 & _); auto.
      { cbn [a_map a_update]. apply upd_same. }
      assert (st3 = st') as -> by congruence. eexists. split; [eapply smem_pl; [exact DS|exact DT|exact R3]|].
      cbn [a_top a_map a_update]. split; [lia|]. split; [apply upd_same|].
      split; intros j J; [intros _; now rewrite !upd_other|]. left. unfold upd. destruct (j =? i); auto. }
    - destruct AT as (st0' & st1' & E0' & E1' & EI & T). assert (st0' = st0) as -> by congruence. assert (st1' = st1) as -> by congruence.
      rewrite (sm_alloc _ _ _ _ _ R1) in EI, T. cbn [a_top a_update] in EI, T.
      pose proof (m_lowered _ _ _ _ _ R1 ltac:(lia) EI NS NT) as R2.
      destruct (m_trimmed _ _ _ _ _ _ R2 (moved_capped _ _ _ (CP (m_above _ _ _ _ _ R EI))) T) as (a3 & R3 & M3 & LE).
      cbn [a_top a_map] in LE, M3. exists a3. split; [eapply smem_pl; [exact DS|exact DT|exact R3]|]. split; [lia|].
      split; [rewrite M3; apply upd_same|]. split; intros j J; [intros _; now rewrite M3, upd_other|]. left. rewrite M3. unfold upd. destruct (j =? i); auto.
    - destruct AT as (st0' & st1' & E0' & E1' & EI & st2 & T & P & EU & ED). assert (st0' = st0) as -> by congruence. assert (st1' = st1) as -> by congruence.
      rewrite (sm_alloc _ _ _ _ _ R1) in EI, T. cbn [a_top a_update] in EI, T.
      pose proof (m_lowered _ _ _ _ _ R1 ltac:(lia) EI NS NT) as R2.
      pose proof (moved_capped _ _ _ (CP (m_above _ _ _ _ _ R EI))) as CP'.
      destruct (m_trimmed _ _ _ _ _ _ R2 CP' T) as (a3 & R3 & M3 & LE). cbn [a_top a_map] in LE, M3.
      rewrite (sm_alloc _ _ _ _ _ R3) in *. rewrite (m_unused _ _ _ _ _ R3) in EU by lia.
      destruct (m_top _ _ _ _ R3) as (M & FI & _ & _); [|lia|destruct (readable _ _ _); [discriminate|reflexivity]|].
      { eapply capped_ext; [|exact CP']. intros j. now rewrite M3. }
      destruct (s_unused_detach_ok cf lops LOK _ _ _ _ (a_top a3) R3 FI) as (st3 & ED' & R4 & _).
      assert (st3 = st') as -> by congruence.
      eexists. split; [eapply smem_pl; [exact DS|exact DT|exact R4]|]. cbn [a_top a_map]. split; [lia|].
      rewrite M3 in M. split; [rewrite upd_other by lia; rewrite M3; apply upd_same|]. split; intros j J.
      + intros K. rewrite upd_other; [now rewrite M3, upd_other|]. intros ->. rewrite upd_other in M by auto. contradiction.
      + unfold upd at 1 2. destruct (N.eqb_spec j (a_top a3)); [right; eauto|]. left. rewrite M3. unfold upd. destruct (j =? i); auto.
  Qed.

  (** ** create_links *)
  Lemma m_aset st a sP tP : smem cf st a sP tP -> Scars.aset a.
  Proof. intros R. constructor; apply R. Qed.
  Lemma m_next st a sP tP : smem cf st a sP tP -> a_map a (a_next a) = None /\ a_next a <> 0.
  Proof.
    intros R. pose proof (m_aset _ _ _ _ R) as W. unfold a_next. destruct (a_free a) as [|z fl] eqn:EF.
    - split; [|lia]. apply Scars.aset_none; auto. left. lia.
    - assert (K : In z (a_free a)) by (rewrite EF; now left). split.
      + apply Scars.aset_none; auto.
      + apply (sm_free _ _ _ _ _ R) in K. lia.
  Qed.
  Lemma m_create_map st a sP tP y : smem cf st a sP tP -> a_map a y <> None -> a_map (a_create a) y = a_map a y.
  Proof.
    intros R Y. rewrite a_create_map. apply upd_other. intros ->. apply Y. apply (m_next _ _ _ _ R).
  Qed.
  Lemma m_sp_create st a sP tP : smem cf st a sP tP -> sp_ok (a_create a) sP.
  Proof.
    intros R x. pose proof (sm_sp _ _ _ _ _ R x) as K. pose proof (fun y => m_create_map _ _ _ _ y R) as C.
    destruct (sP x) as [| |v]; auto.
    - destruct K as (s & t & K1 & K2). exists s, t. rewrite C by congruence. auto.
    - destruct K as ((t & K1) & K2 & K3). rewrite !C by congruence. eauto.
  Qed.
  Lemma m_tp_create st a sP tP : smem cf st a sP tP -> tp_ok (a_create a) tP.
  Proof.
    intros R x. pose proof (sm_tp _ _ _ _ _ R x) as K. pose proof (fun y => m_create_map _ _ _ _ y R) as C.
    destruct (tP x) as [| |v]; auto.
    - destruct K as (s & t & K1 & K2). exists s, t. rewrite C by congruence. auto.
    - destruct K as ((t & K1) & K2 & K3). rewrite !C by congruence. eauto.
  Qed.
  Lemma m_raise st a sP tP : smem cf st a sP tP -> a_free a = [] ->
    a_top a < c_iend cf -> a_top a + 1 < s_ilen st ->
    smem cf (s_set_alloc st (a_top a + 1)) (a_create a) sP tP.
  Proof.
    intros R EF TI TL. pose proof (m_aset _ _ _ _ R) as W.
    assert (TA : a_top (a_create a) = a_top a + 1) by (unfold a_create; now rewrite EF).
    assert (FA : a_free (a_create a) = []) by (unfold a_create; now rewrite EF).
    assert (NX : a_next a = a_top a + 1) by (unfold a_next; now rewrite EF).
    destruct (s_alloc_frame st (a_top a + 1)) as (F1 & F2 & F3 & F4 & F5 & F6).
    constructor; rewrite ?TA, ?FA; try exact (sm_data0 _ _ _ _ _ R); try apply R; auto.
    - lia.
    - pose proof (sm_list _ _ _ _ _ R) as LR. rewrite EF in LR. exact LR.
    - intros i. rewrite (Scars.as_dom _ (Scars.aset_create _ W)), TA, FA. reflexivity.
    - intros i [].
    - intros i p. rewrite F3, a_create_map, NX. unfold upd. destruct (N.eqb_spec i (a_top a + 1)) as [->|].
      + intros [= <-]. apply (sm_beyond _ _ _ _ _ R). lia.
      + apply R.
    - eapply forest_ext; [| | | |apply (sm_src _ _ _ _ _ R)]; auto.
    - eapply m_sp_create; eauto.
    - eapply m_tp_create; eauto.
    - intros i K. rewrite F3. apply (sm_beyond _ _ _ _ _ R). lia.
  Qed.
  Lemma m_resolve_external st a sP tP i : smem cf st a sP tP -> readable (a_map a) tP i = true ->
    (forall x, sP x <> Int i) -> (forall x, tP x <> Int i) -> s_resolve_external cf tops st i = Val st.
  Proof.
    intros R RD NS NT. unfold s_resolve_external.
    destruct (m_users_s _ _ _ _ i R RD) as (u & EU & _ & IU & _).
    destruct (m_users_t _ _ _ _ i R RD) as (w & EW & _ & IW & _).
    assert (u = []) as ->. { destruct u as [|k u]; auto. destruct (IU k) as [K _]; [now left|]. now apply NS in K. }
    assert (w = []) as ->. { destruct w as [|k w]; auto. destruct (IW k) as [K _]; [now left|]. now apply NT in K. }
    unfold users_s in EU. destruct (s_each_iter cf st [c_any cf; i; c_any cf]); try discriminate. cbn [obind] in *.
    injection EU as EU. rewrite EU. cbn [s_for obind].
    unfold users_t in EW. destruct (s_each_iter cf st [c_any cf; c_any cf; i]); try discriminate. cbn [obind] in *.
    injection EW as EW. rewrite EW. reflexivity.
  Qed.
  Lemma m_created st a sP tP st1 : smem cf st a sP tP -> smem cf st1 (a_create a) sP tP ->
    s_resolve_external cf tops st1 (a_next a) = Val st1.
  Proof.
    intros R R1. destruct (m_next _ _ _ _ R) as [NN _]. apply (m_resolve_external st1 (a_create a) sP tP); auto.
    - unfold readable. rewrite a_create_map, upd_same. reflexivity.
    - intros y K. pose proof (sm_sp _ _ _ _ _ R y) as O. rewrite K in O. tauto.
    - intros y K. pose proof (sm_tp _ _ _ _ _ R y) as O. rewrite K in O. tauto.
  Qed.

  (** Everything create_links can do, if the memories grow together or not at all. *)
  Lemma m_create st a sP tP q : smem cf st a sP tP -> both_or_none (s_orc st) ->
    (a_free a = [] /\ c_iend cf <= a_top a /\
      fails_with (fun H h x => s_create cf tops lops h q st x) st (LimitReached (c_iend cf))) \/
    (a_free a = [] /\ a_top a < c_iend cf /\ exists st', smem cf st' a sP tP /\ both_or_none (s_orc st') /\ s_same_cells st' st /\
      fails_with (fun H h x => s_create cf tops lops h q st x) st' AllocFailed) \/
    (a_top a < c_iend cf /\ s_ilen st <= a_top a + 2 /\ c_tmax cf < s_ilen st + c_step cf /\ forall H (h : whandler H) x, s_create cf tops lops h q st x = Panic) \/
    (exists st', smem cf st' (a_create a) sP tP /\ both_or_none (s_orc st') /\
      calls_once (fun H h x => s_create cf tops lops h q st x) st' nothing (mkLink (a_next a) 0 0)).
  Proof.
    intros R B.
    pose proof (ok_iend _ CF). pose proof (ok_any _ CF). pose proof (sm_dlen _ _ _ _ _ R) as DL. pose proof (ok_step _ CF).
    pose proof (sm_res1 _ _ _ _ _ R). pose proof (sm_res2 _ _ _ _ _ R). pose proof (sm_dcap _ _ _ _ _ R) as DC.
    pose proof (sm_len _ _ _ _ _ R).
    destruct (a_free a) as [|y fl] eqn:EF.
    - assert (NX : a_next a = a_top a + 1) by (unfold a_next; now rewrite EF).
      destruct (N.le_gt_cases (c_iend cf) (a_top a)) as [FU|TI].
      { left. split; auto. split; auto. intros H9 h x. unfold s_create. rewrite (s_header_ok _ _ _ _ _ R). cbn [obind].
        rewrite (sm_first _ _ _ _ _ R), EF, (ok_null _ CF), (sm_alloc _ _ _ _ _ R). cbn [hd N.eqb].
        destruct (N.leb_spec (c_iend cf) (a_top a)); [reflexivity|lia]. }
      right. destruct (N.le_gt_cases (sh_reserved st - 1) (a_top a)) as [GR|GR].
      + destruct (s_orc st 0%nat (s_dcap st + c_step cf) (s_ilen st + c_step cf)) eqn:EO.
        * (* no data *) left. split; auto. split; auto. exists (s_remem st (s_dcap st) (next_orc st)). split; [now apply smem_orc|].
          split; [intros k; apply (B (S k))|]. split; [repeat split|].
          intros Hh h x. unfold s_create. rewrite (s_header_ok _ _ _ _ _ R). cbn [obind].
          rewrite (sm_first _ _ _ _ _ R), EF, (ok_null _ CF), (sm_alloc _ _ _ _ _ R). cbn [hd N.eqb].
          destruct (N.leb_spec (c_iend cf) (a_top a)); [lia|]. unfold s_grow. rewrite (sm_alloc _ _ _ _ _ R).
          rewrite csub_ok by lia. cbn [obind]. destruct (N.leb_spec (sh_reserved st - 1) (a_top a)); [|lia].
          unfold s_alloc_mem. rewrite EO. reflexivity.
        * exfalso. now apply (B 0%nat) in EO.
        * (* grown *) right. destruct (N.le_gt_cases (s_ilen st + c_step cf) (c_tmax cf)) as [TM|TM].
          -- right.
             set (st0 := s_grown st (s_dcap st + c_step cf) (s_ilen st + c_step cf) (next_orc st)).
             assert (R1 : smem cf st0 a sP tP) by (apply s_grown_ok; auto; lia).
             set (st1 := s_set_alloc st0 (a_top a + 1)).
             assert (R2 : smem cf st1 (a_create a) sP tP).
             { apply m_raise; auto. unfold st0, s_grown, s_set_reserved. cbn [s_ilen s_set_src]. lia. }
             exists st1. split; auto. split; [intros k; apply (B (S k))|]. intros Hh h x. unfold s_create.
             rewrite (s_header_ok _ _ _ _ _ R). cbn [obind].
             rewrite (sm_first _ _ _ _ _ R), EF, (ok_null _ CF), (sm_alloc _ _ _ _ _ R). cbn [hd N.eqb].
             destruct (N.leb_spec (c_iend cf) (a_top a)); [lia|].
             unfold s_grow. rewrite (sm_alloc _ _ _ _ _ R).
             rewrite csub_ok by lia. cbn [obind]. destruct (N.leb_spec (sh_reserved st - 1) (a_top a)); [|lia].
             unfold s_alloc_mem. rewrite EO. cbn [s_data s_rs s_is s_rt s_it].
             unfold s_header. cbn [s_ilen]. destruct (N.ltb_spec 0 (s_ilen st + c_step cf)); [|lia]. cbn [obind].
             rewrite ctry_ok by lia. cbn [obind]. change (s_set_reserved _ _) with st0.
             rewrite (sm_alloc _ _ _ _ _ R1). rewrite cadd_ok by lia. cbn [obind]. fold st1. rewrite <- NX.
             rewrite (m_created _ _ _ _ _ R R2). cbn [obind]. destruct (h x nothing (mkLink (a_next a) 0 0)); reflexivity.
          -- left. split; [lia|]. split; [lia|]. split; [lia|]. intros Hh h x. unfold s_create. rewrite (s_header_ok _ _ _ _ _ R). cbn [obind].
             rewrite (sm_first _ _ _ _ _ R), EF, (ok_null _ CF), (sm_alloc _ _ _ _ _ R). cbn [hd N.eqb].
             destruct (N.leb_spec (c_iend cf) (a_top a)); [lia|]. unfold s_grow. rewrite (sm_alloc _ _ _ _ _ R).
             rewrite csub_ok by lia. cbn [obind]. destruct (N.leb_spec (sh_reserved st - 1) (a_top a)); [|lia].
             unfold s_alloc_mem. rewrite EO. unfold s_header. cbn [s_ilen].
             destruct (N.ltb_spec 0 (s_ilen st + c_step cf)); [|lia]. cbn [obind].
             unfold ctry. destruct (N.leb_spec (s_ilen st + c_step cf) (c_tmax cf)); [lia|reflexivity].
      + right. right. exists (s_set_alloc st (a_top a + 1)).
        assert (R1 : smem cf (s_set_alloc st (a_top a + 1)) (a_create a) sP tP) by (apply m_raise; auto; lia).
        split; auto. split; [exact B|]. intros Hh h x.
        unfold s_create. rewrite (s_header_ok _ _ _ _ _ R). cbn [obind].
        rewrite (sm_first _ _ _ _ _ R), EF, (ok_null _ CF), (sm_alloc _ _ _ _ _ R). cbn [hd N.eqb].
        destruct (N.leb_spec (c_iend cf) (a_top a)); [lia|]. unfold s_grow. rewrite (sm_alloc _ _ _ _ _ R).
        rewrite csub_ok by lia. cbn [obind]. destruct (N.leb_spec (sh_reserved st - 1) (a_top a)); [lia|].
        cbn [obind]. rewrite (sm_alloc _ _ _ _ _ R). rewrite cadd_ok by lia. cbn [obind].
        rewrite <- NX in *. rewrite (m_created _ _ _ _ _ R R1). cbn [obind].
        destruct (h x nothing (mkLink (a_next a) 0 0)); reflexivity.
    - right. right. right. assert (NX : a_next a = y) by (unfold a_next; now rewrite EF).
      assert (HI : In y (a_free a)) by (rewrite EF; now left).
      assert (Y0 : y <> 0) by (apply (sm_free _ _ _ _ _ R) in HI; lia).
      destruct (s_unused_detach_ok cf lops LOK _ _ _ _ y R HI) as (st1 & E1 & R1 & M1).
      exists st1.
      assert (R2 : smem cf st1 (a_create a) sP tP).
      { pose proof (sm_nodup _ _ _ _ _ R) as ND. rewrite EF in ND. inversion ND; subst.
        eapply smem_ext; [| | |exact R1]; unfold a_create; rewrite EF; cbn [a_top a_free a_map]; auto.
        symmetry. now apply lremove_head. }
      assert (OE : s_orc st1 = s_orc st) by apply M1.
      split; auto. split; [rewrite OE; exact B|]. intros Hh h x.
      unfold s_create. rewrite (s_header_ok _ _ _ _ _ R). cbn [obind].
      rewrite (sm_first _ _ _ _ _ R), EF, (ok_null _ CF). cbn [hd].
      destruct (N.eqb_spec y 0); [contradiction|]. rewrite E1. cbn [obind].
      rewrite <- NX in *. rewrite (m_created _ _ _ _ _ R R2). cbn [obind].
      destruct (h x nothing (mkLink (a_next a) 0 0)); reflexivity.
  Qed.
End W.
