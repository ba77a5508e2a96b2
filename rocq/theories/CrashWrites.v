(** Stopping in the middle of a creation or a deletion of the single-memory store:
    create_links (store.rs:429-463) and delete_links (store.rs:522-555). *)
From Coq Require Import NArith List Bool Lia.
From Verif Require Import Base Trees Lists TreeInv Spec Iface UnitModel UnitInv UnitOps UnitLinks
  Doublets DoubletsOK Obs Hist Claims TreeImpl UnitHist Crash.
Import ListNotations.
Open Scope N_scope.

(** The memory when the process stops inside create_links: before the first write; between
    the allocation (444-448) and the write of [reserved] (449-451); between that and the
    write of [allocated] (454); after the last write.  The writes of [unused.detach] (457)
    are those of the external crate and are not distinguished. *)
Inductive create_point (cf : cfg) (lops : list_ops) (st : ust) : ust -> Prop :=
| CP_before : create_point cf lops st st
| CP_grown st1 : u_alloc_mem st (u_len st + c_step cf) = Some st1 -> create_point cf lops st st1
| CP_reserved st1 r : u_grow cf st = Val (st1, r) -> create_point cf lops st st1
| CP_done H (h : whandler H) q x st1 x1 r :
    u_create cf lops h q st x = Val (st1, x1, r) -> create_point cf lops st st1.

(** [n] complete rounds of the loop that lowers [allocated] past unused links (540-547). *)
Fixpoint trimmed (lops : list_ops) (n : nat) (st st' : ust) : Prop :=
  match n with
  | O => st' = st
  | S k => 0 < h_alloc st /\ u_is_unused st (h_alloc st) = Val true /\
      exists st1, u_unused_detach lops st (h_alloc st) = Val st1 /\
        trimmed lops k (set_alloc st1 (h_alloc st - 1)) st'
  end.

(** Where the process stopped inside delete_links, once the update to (0, 0) is complete. *)
Inductive del_point :=
| Zeroed                    (* right after the update (530) *)
| Listed                    (* after unused.attach_as_first (534) *)
| Trimming (n : nat)        (* allocated lowered (536-538), and [n] rounds of the loop done *)
| Detaching (n : nat).      (* in the next round, between unused.detach (545) and the write of allocated (546) *)

Definition delete_at (tops : tree_ops) (lops : list_ops) (st : ust) (i os ot : N) (p : del_point) (st' : ust) : Prop :=
  exists st0, u_relink tops st i os ot 0 0 = Val st0 /\
  match p with
  | Zeroed => st' = st0
  | Listed => i < h_alloc st0 /\ u_unused_attach lops st0 i = Val st'
  | Trimming n => i = h_alloc st0 /\ trimmed lops n (set_alloc st0 (h_alloc st0 - 1)) st'
  | Detaching n => i = h_alloc st0 /\ exists st2, trimmed lops n (set_alloc st0 (h_alloc st0 - 1)) st2 /\
      0 < h_alloc st2 /\ u_is_unused st2 (h_alloc st2) = Val true /\ u_unused_detach lops st2 (h_alloc st2) = Val st'
  end.

(** count and each agree on the number of links. *)
Definition agreed (cf : cfg) (st : ust) : Prop :=
  exists n, u_count cf st [] = Val n /\ u_each cf (fun m _ => (m + 1, Continue)) [] st 0 = Val (n, Continue).

Section CW.
  Variables (cf : cfg) (tops : tree_ops) (lops : list_ops).
  Hypothesis ENV : unit_env cf tops lops.
  Notation U := (unit_links cf tops lops).
  Let CF : cfg_ok cf := e_cf cf tops lops ENV.
  Let TOK : tree_ops_ok tops := proj1 (proj2 ENV).
  Let LOK : list_ops_ok lops := proj2 (proj2 ENV).

  Lemma urep_agreed st a : urep cf st a -> agreed cf st.
  Proof.
    intros R. exists (N.of_nat (length (alinks a))). split.
    - unfold u_count. eapply u_get_total_ok; eauto.
    - unfold u_each. rewrite (u_each_all_ok cf CF st a _ _ _ R).
      pose proof (run_count_visits (alinks a) 0) as RC. unfold count_visits in RC. now rewrite RC.
  Qed.

  Lemma reopen_urep st1 st a orc st2 : same_cells st1 st -> urep cf st a -> a_top a < c_step cf ->
    u_open cf (u_persist st1 orc) = Val (Ok st2) -> urep cf st2 a.
  Proof.
    intros SC R TS E. destruct SC as (S1 & S2 & S3 & S4).
    assert (HA : h_alloc (u_persist st1 orc) < c_step cf).
    { change (h_alloc (u_persist st1 orc)) with (h_alloc st1). rewrite S2, (ur_alloc _ _ _ R). exact TS. }
    destruct (u_open_cond cf tops lops ENV _ _ E HA) as (T & O1 & O2).
    destruct (u_open_urep cf CF (u_persist st1 orc) st a) as (st3 & E3 & R3 & _); auto.
    - repeat split; auto.
    - congruence.
  Qed.
  Lemma same_cells_refl st : same_cells st st.
  Proof. repeat split; auto. Qed.

  Lemma grow_cells st st1 r : u_grow cf st = Val (st1, r) -> same_cells st1 st.
  Proof.
    unfold u_grow, u_alloc_mem. destruct (csub (h_reserved st) 1) as [r1| | |]; try discriminate. cbn [obind].
    destruct (r1 <=? h_alloc st); [|intros E; injection E as <- _; apply same_cells_refl].
    destruct (u_orc st 0%nat _); [|intros E; injection E as <- _; repeat split; auto].
    unfold u_header. cbn [u_len]. destruct (0 <? u_len st + c_step cf); try discriminate. cbn [obind].
    unfold ctry. destruct (_ <=? c_tmax cf); try discriminate. cbn [obind]. intros E; injection E as <- _.
    repeat split; auto. intros j J. cbn [u_data set_reserved set_data]. now apply upd_other.
  Qed.

  (** ** The trim loop *)
  Lemma trim_trimmed : forall fuel st st', u_trim lops fuel st = Val st' -> exists n, trimmed lops n st st'.
  Proof.
    induction fuel as [|fuel IH]; intros st st' E; [discriminate|]. cbn [u_trim] in E.
    destruct (u_header st); try discriminate. cbn [obind] in E.
    destruct (N.ltb_spec 0 (h_alloc st)) as [P|P]; [|injection E as <-; exists O; reflexivity].
    destruct (u_is_unused st (h_alloc st)) as [[]| | |] eqn:EU; try discriminate; cbn [obind negb] in E;
      [|injection E as <-; exists O; reflexivity].
    destruct (u_unused_detach lops st (h_alloc st)) as [st1| | |] eqn:ED; try discriminate. cbn [obind] in E.
    rewrite csub_ok in E by lia. cbn [obind] in E. destruct (IH _ _ E) as [n T].
    exists (S n). cbn [trimmed]. eauto.
  Qed.

  Lemma free_top st a : urep cf st a -> 0 < h_alloc st -> u_is_unused st (h_alloc st) = Val true ->
    1 <= a_top a /\ h_alloc st = a_top a /\ a_map a (a_top a) = None /\ In (a_top a) (a_free a).
  Proof.
    intros R P E. pose proof (ur_alloc _ _ _ R) as HA. rewrite HA in P, E. rewrite (u_is_unused_ok cf st a (a_top a) R) in E by lia.
    destruct (a_map a (a_top a)) eqn:M; [discriminate|]. repeat split; auto; [lia|].
    destruct (in_dec N.eq_dec (a_top a) (a_free a)) as [|NI]; auto. exfalso.
    assert (K : a_map a (a_top a) <> None) by (apply (ur_dom _ _ _ R); split; [lia|auto]). congruence.
  Qed.

  (** Complete rounds change nothing that can be seen. *)
  Lemma trimmed_urep : forall n st a st', urep cf st a -> trimmed lops n st st' ->
    exists a', urep cf st' a' /\ (forall j, a_map a' j = a_map a j) /\ a_top a' <= a_top a.
  Proof.
    induction n as [|n IH]; intros st a st' R T; [cbn in T; subst; exists a; split; [exact R|split; [auto|lia]]|].
    destruct T as (P & EU & st1 & ED & T). destruct (free_top _ _ R P EU) as (T1 & HA & M & FI).
    destruct (u_unused_detach_ok cf lops LOK st a (a_top a) R FI) as (st1' & ED' & R1 & _).
    rewrite HA in ED, T. rewrite ED in ED'. injection ED' as <-.
    pose proof (u_lower_ok cf st1 _ R1) as R2. cbn [a_top a_free a_map] in R2.
    specialize (R2 T1 (upd_same _ _ _ _)).
    destruct (IH _ _ _ R2 T) as (a' & R3 & EM & LE). cbn [a_top a_map] in EM, LE.
    exists a'. split; [exact R3|]. split; [|lia]. intros j. rewrite EM. unfold upd.
    destruct (N.eqb_spec j (a_top a)) as [->|]; auto.
  Qed.

  (** What the memory holds at each of these points. *)
  Lemma delete_at_urep st a i os ot p st1 : uinv cf st a -> a_map a i = Some (os, ot) -> detachable a i ->
    delete_at tops lops st i os ot p st1 -> exists a1, urep cf st1 a1 /\ a_top a1 <= a_top a /\
    match p with
    | Zeroed => a_map a1 i = Some (0, 0) /\ forall j, j <> i -> a_map a1 j = a_map a j
    | Listed | Trimming _ => a_map a1 i = None /\ forall j, j <> i -> a_map a1 j = a_map a j
    | Detaching _ => exists k, 1 <= k < i /\ a_map a k = None /\ a_map a1 k = Some (0, 0) /\ a_map a1 i = None /\
        forall j, j <> i -> j <> k -> a_map a1 j = a_map a j
    end.
  Proof.
    intros [R W] M D (st0 & E0 & P).
    destruct (u_relink_ok cf tops TOK st a i os ot 0 0 R M D) as (st0' & E0' & R0 & _).
    rewrite E0 in E0'. injection E0' as <-.
    assert (RI : 1 <= i <= a_top a /\ ~ In i (a_free a)) by (apply (wf_dom _ W); congruence).
    assert (MI : a_map (a_update a i 0 0) i = Some (0, 0)) by (cbn [a_map a_update]; apply upd_same).
    assert (MJ : forall j, j <> i -> a_map (a_update a i 0 0) j = a_map a j) by (intros; cbn [a_map a_update]; now apply upd_other).
    assert (HA : h_alloc st0 = a_top a) by (rewrite (ur_alloc _ _ _ R0); reflexivity).
    assert (LOW : i = h_alloc st0 -> urep cf (set_alloc st0 (h_alloc st0 - 1)) (mkA (a_top a - 1) (a_free a) (upd (a_map (a_update a i 0 0)) i None))).
    { intros EI. rewrite HA in *. pose proof (u_lower_ok cf st0 _ R0) as R2. cbn [a_top a_update] in R2. cbn [a_free a_update] in R2.
      rewrite <- EI in *. apply R2; [lia|exact MI]. }
    destruct p as [| |n|n].
    - subst st1. exists (a_update a i 0 0). split; [exact R0|]. split; [cbn [a_top a_update]; lia|auto].
    - destruct P as [LT EA]. destruct (u_unused_attach_ok cf lops LOK st0 _ i R0 MI) as (st1' & E1 & R1 & _).
      rewrite EA in E1. injection E1 as <-. eexists. split; [exact R1|]. cbn [a_top a_map a_update].
      split; [lia|]. split; [apply upd_same|]. intros j J. rewrite upd_other by auto. now apply MJ.
    - destruct P as [EI T]. destruct (trimmed_urep _ _ _ _ (LOW EI) T) as (a1 & R1 & EM & LE). cbn [a_top a_map] in EM, LE.
      exists a1. split; [exact R1|]. split; [lia|]. split; [rewrite EM; apply upd_same|].
      intros j J. rewrite EM, upd_other by auto. now apply MJ.
    - destruct P as (EI & st2 & T & P2 & EU & ED). destruct (trimmed_urep _ _ _ _ (LOW EI) T) as (a1 & R1 & EM & LE). cbn [a_top a_map] in EM, LE.
      destruct (free_top _ _ R1 P2 EU) as (T1 & HA2 & M2 & FI).
      destruct (u_unused_detach_ok cf lops LOK st2 a1 (a_top a1) R1 FI) as (st1' & ED' & R3 & _).
      rewrite HA2, ED' in ED. injection ED as <-. eexists. split; [exact R3|]. cbn [a_top a_map].
      split; [lia|]. exists (a_top a1). assert (KI : a_top a1 < i) by lia.
      split; [lia|]. split; [|split; [apply upd_same|split]].
      + rewrite EM, upd_other in M2 by lia. rewrite <- MJ by lia. exact M2.
      + rewrite upd_other by lia. rewrite EM. apply upd_same.
      + intros j J1 J2. rewrite upd_other, EM, upd_other by auto. now apply MJ.
  Qed.
End CW.
