(** Adding the links that have an index as their source and those that have it as their target,
    in an address type that may not hold the sum (C80). *)
From Coq Require Import NArith List Bool Lia Permutation.
From Verif Require Import Base Trees Lists TreeInv Spec Iface UnitModel UnitInv UnitOps UnitLinks LinkModel SplitModel Forest
  SplitInv SplitReads SplitOps SplitWrites SplitLinks Doublets DoubletsOK Obs Hist Claims TreeImpl UnitHist SplitHist UnitClaims SplitClaims.
Import ListNotations.
Open Scope N_scope.

Lemma filter_split {A} (f : A -> bool) l : (length l = length (filter f l) + length (filter (fun x => negb (f x)) l))%nat.
Proof. induction l as [|x l IH]; [reflexivity|]. cbn [filter length]. destruct (f x); cbn [negb length]; lia. Qed.

Section Generic.
  Variables (cf : cfg) (S : Type) (sp : store_spec) (I : LinksI S) (R : S -> astate -> Prop).
  Hypothesis CF : cfg_ok cf.
  Hypothesis IOK : links_ok cf sp I R.
  Hypothesis SPQ : forall st a i, R st a -> a_map a i <> None ->
    sp_query sp a [c_any cf; i; c_any cf] /\ sp_query sp a [c_any cf; c_any cf; i].
  (** The count of [[any; v]] is the sum of the two counts. *)
  Hypothesis SUM : forall st v A B, v <> c_any cf ->
    li_count I st [c_any cf; v; c_any cf] = Val A -> li_count I st [c_any cf; c_any cf; v] = Val B ->
    li_count I st [c_any cf; v] = if A + B <=? c_tmax cf then Val (A + B) else Panic.
  Notation any := (c_any cf).

  Lemma ov_visits st a i : R st a -> a_map a i <> None ->
    exists L1 L2, visits I st [any; i; any] L1 /\ visits I st [any; any; i] L2 /\
      Permutation L1 (filter (fun l => l_source l =? i) (alinks a)) /\ Permutation L2 (filter (fun l => l_target l =? i) (alinks a)).
  Proof.
    intros HR M. destruct (exists_range cf sp I R IOK _ _ _ CF HR M) as (I0 & IA & IE). destruct (SPQ _ _ _ HR M) as [Q1 Q2].
    destruct (visits_ex cf sp I R IOK _ _ _ HR Q1) as (L1 & V1 & VO1). destruct (visits_ex cf sp I R IOK _ _ _ HR Q2) as (L2 & V2 & VO2).
    apply (src_visits cf R _ _ _ _ HR I0 IA) in VO1. apply (tgt_visits cf R _ _ _ _ HR I0 IA) in VO2.
    exists L1, L2. auto.
  Qed.
  Lemma ov_links st a LL (f : link -> bool) : R st a -> Permutation LL (filter f (alinks a)) ->
    NoDup LL /\ forall l, In l LL <-> li_get I st (l_index l) = Val (Some l) /\ f l = true.
  Proof.
    intros HR P. pose proof (lo_wf _ _ _ _ IOK _ _ HR) as W. split.
    - eapply Permutation_NoDup; [symmetry; exact P|]. apply NoDup_filter, nodup_alinks.
    - assert (OL : forall l, li_get I st (l_index l) = Val (Some l) <-> In l (alinks a)).
      { intros [j s t]. cbn. rewrite (in_alinks a j s t W). apply (ob_link cf sp I R IOK _ _ _ _ _ HR). }
      intros l. rewrite OL, <- filter_In. split; apply Permutation_in; [exact P|symmetry; exact P].
  Qed.

  Lemma ov_count st a i : R st a -> linked I st i ->
    exists L1 L2, NoDup L1 /\ NoDup L2 /\
      (forall l, In l L1 <-> li_get I st (l_index l) = Val (Some l) /\ l_source l = i) /\
      (forall l, In l L2 <-> li_get I st (l_index l) = Val (Some l) /\ l_target l = i) /\
      li_count I st [any; i] = if N.of_nat (length (L1 ++ L2)) <=? c_tmax cf then Val (N.of_nat (length (L1 ++ L2))) else Panic.
  Proof.
    intros HR M. apply (ob_linked cf sp I R IOK _ _ _ HR) in M. destruct (ov_visits st a i HR M) as (L1 & L2 & V1 & V2 & P1 & P2).
    destruct (exists_range cf sp I R IOK _ _ _ CF HR M) as (I0 & IA & IE).
    destruct (ov_links _ _ _ _ HR P1) as [N1 O1]. destruct (ov_links _ _ _ _ HR P2) as [N2 O2].
    exists L1, L2. split; [exact N1|]. split; [exact N2|].
    split; [intros l; rewrite O1, N.eqb_eq; reflexivity|]. split; [intros l; rewrite O2, N.eqb_eq; reflexivity|].
    rewrite (SUM st i _ _ IA (proj2 V1) (proj2 V2)), app_length, Nat2N.inj_add. reflexivity.
  Qed.

  Lemma ov_usages st a i : R st a -> linked I st i ->
    exists L1 L2, NoDup L1 /\ NoDup L2 /\
      (forall l, In l L1 <-> li_get I st (l_index l) = Val (Some l) /\ l_index l <> i /\ l_source l = i) /\
      (forall l, In l L2 <-> li_get I st (l_index l) = Val (Some l) /\ l_index l <> i /\ l_target l = i) /\
      if N.of_nat (length (L1 ++ L2)) <=? c_tmax cf
      then d_count_usages cf I st i = Val (Ok (N.of_nat (length (L1 ++ L2)))) /\
           d_has_usages cf I st i = Val (match L1 ++ L2 with [] => false | _ => true end) /\
           d_usages cf I st i = Val (Ok (map l_index (L1 ++ L2)))
      else d_count_usages cf I st i = Panic /\ d_has_usages cf I st i = Panic /\ d_usages cf I st i = Panic.
  Proof.
    intros HR M. apply (ob_linked cf sp I R IOK _ _ _ HR) in M. destruct (ov_visits st a i HR M) as (L1 & L2 & V1 & V2 & P1 & P2).
    pose proof (lo_wf _ _ _ _ IOK _ _ HR) as W.
    set (nf := fun l => negb (l_index l =? i)).
    pose proof (Permutation_filter nf _ _ P1) as Q1. pose proof (Permutation_filter nf _ _ P2) as Q2. rewrite filter_filter in Q1, Q2.
    destruct (ov_links _ _ _ _ HR Q1) as [N1 O1]. destruct (ov_links _ _ _ _ HR Q2) as [N2 O2].
    exists (filter nf L1), (filter nf L2). split; [exact N1|]. split; [exact N2|].
    assert (TR : forall l (f : link -> N), nf l && (f l =? i) = true <-> l_index l <> i /\ f l = i).
    { intros l f. unfold nf. rewrite andb_true_iff, negb_true_iff, N.eqb_neq, N.eqb_eq. reflexivity. }
    split; [intros l; rewrite O1, (TR l l_source); reflexivity|]. split; [intros l; rewrite O2, (TR l l_target); reflexivity|].
    assert (C : d_count_usages cf I st i = let n := N.of_nat (length (filter nf L1 ++ filter nf L2)) in
      if n <=? c_tmax cf then Val (Ok n) else Panic).
    { destruct (a_map a i) as [[s t]|] eqn:E; [|congruence].
      unfold d_count_usages, d_count_by. rewrite (d_try_get_ok cf sp I R IOK _ _ _ HR), E. cbn [obind l_source l_target].
      rewrite (proj2 V1), (proj2 V2). cbn [obind]. rewrite app_length.
      apply Permutation_length in P1, P2, Q1, Q2. rewrite Q1, Q2, P1, P2.
      rewrite (split_self a i _ s t W E), (split_self a i (fun l => l_target l =? i) s t W E).
      unfold nf. cbn [l_source l_target].
      rewrite (N.eqb_sym i s), (N.eqb_sym i t).
      set (A := length (filter (fun l => negb (l_index l =? i) && (l_source l =? i)) (alinks a))).
      set (B := length (filter (fun l => negb (l_index l =? i) && (l_target l =? i)) (alinks a))).
      assert (SUB : forall (b : bool) k, (if b then csub (N.of_nat (k + (if b then 1 else 0))) 1 else Val (N.of_nat (k + (if b then 1 else 0)))) = Val (N.of_nat k)).
      { intros [] k; [rewrite csub_ok by lia|]; f_equal; lia. }
      assert (SUB' : forall (b : bool) k, (if b then csub (N.of_nat ((if b then 1 else 0) + k)) 1 else Val (N.of_nat ((if b then 1 else 0) + k))) = Val (N.of_nat k)).
      { intros [] k; [rewrite csub_ok by lia|]; f_equal; lia. }
      rewrite ?SUB, ?SUB'. cbn [obind]. unfold cadd. rewrite Nat2N.inj_add.
      destruct (N.of_nat A + N.of_nat B <=? c_tmax cf); reflexivity. }
    cbv zeta in C. unfold d_has_usages, d_usages. rewrite C.
    destruct (N.of_nat (length (filter nf L1 ++ filter nf L2)) <=? c_tmax cf); cbn [obind]; [|auto].
    split; [reflexivity|]. split; [destruct (filter nf L1 ++ filter nf L2); reflexivity|].
    erewrite (d_each_by_ok) by exact V1; rewrite (urun_filter nf l_index). cbn [obind app].
    erewrite (d_each_by_ok) by exact V2; rewrite (urun_filter nf l_index). cbn [obind]. now rewrite map_app.
  Qed.

  (** Links without a common pair: at most one is on both sides. *)
  Lemma distinct_fits st a i L1 L2 : R st a -> distinct_pairs I st -> i <> 0 -> NoDup L1 -> NoDup L2 ->
    (forall l, In l L1 -> li_get I st (l_index l) = Val (Some l) /\ l_source l = i) ->
    (forall l, In l L2 -> li_get I st (l_index l) = Val (Some l) /\ l_target l = i) ->
    N.of_nat (length (L1 ++ L2)) <= c_tmax cf.
  Proof.
    intros HR DP I0 N1 N2 O1 O2. pose proof (lo_wf _ _ _ _ IOK _ _ HR) as W. pose proof (lo_iend _ _ _ _ IOK _ _ HR) as LE.
    assert (OL : forall l, li_get I st (l_index l) = Val (Some l) <-> In l (alinks a)).
    { intros [j s t]. cbn. rewrite (in_alinks a j s t W). apply (ob_link cf sp I R IOK _ _ _ _ _ HR). }
    set (both := fun l => l_target l =? i).
    assert (LB : (length (filter both L1) <= 1)%nat).
    { pose proof (NoDup_filter both N1) as NB. destruct (filter both L1) as [|[j s t] [|[j2 s2 t2] r]] eqn:EF; cbn [length]; try lia. exfalso.
      assert (A1 : In (mkLink j s t) (filter both L1)) by (rewrite EF; now left).
      assert (A2 : In (mkLink j2 s2 t2) (filter both L1)) by (rewrite EF; right; now left).
      apply filter_In in A1, A2. destruct A1 as [A1 B1], A2 as [A2 B2]. apply O1 in A1, A2. destruct A1 as [G1 S1], A2 as [G2 S2].
      apply N.eqb_eq in B1, B2. cbn [l_source l_target l_index] in *. subst s s2 t t2.
      assert (j = j2) by (apply (DP j j2 i i); auto; congruence). subst j2. inversion NB as [|? ? NI _]. apply NI. now left. }
    assert (LA : (length (filter (fun l => negb (both l)) L1 ++ L2) <= length (alinks a))%nat).
    { apply NoDup_incl_length.
      - apply NoDup_app_intro; [now apply NoDup_filter|exact N2|]. intros l A B. apply filter_In in A as [_ A]. apply O2 in B as [_ B].
        unfold both in A. rewrite B, N.eqb_refl in A. discriminate.
      - intros l A. apply OL. apply in_app_or in A as [A|A]; [apply filter_In in A as [A _]; now apply O1|now apply O2]. }
    pose proof (filter_split both L1) as FL. pose proof (alinks_len_le a) as AL.
    pose proof (ok_iend _ CF). pose proof (ok_any _ CF). rewrite app_length in *. lia.
  Qed.
End Generic.

(** * C80 *)
Definition exact_counts {S} (cf : cfg) (I : LinksI S) (st : S) (i : N) : Prop :=
  (exists L1 L2, NoDup L1 /\ NoDup L2 /\
     (forall l, In l L1 <-> li_get I st (l_index l) = Val (Some l) /\ l_source l = i) /\
     (forall l, In l L2 <-> li_get I st (l_index l) = Val (Some l) /\ l_target l = i) /\
     li_count I st [c_any cf; i] = if N.of_nat (length (L1 ++ L2)) <=? c_tmax cf then Val (N.of_nat (length (L1 ++ L2))) else Panic) /\
  (exists L1 L2, NoDup L1 /\ NoDup L2 /\
     (forall l, In l L1 <-> li_get I st (l_index l) = Val (Some l) /\ l_index l <> i /\ l_source l = i) /\
     (forall l, In l L2 <-> li_get I st (l_index l) = Val (Some l) /\ l_index l <> i /\ l_target l = i) /\
     if N.of_nat (length (L1 ++ L2)) <=? c_tmax cf
     then d_count_usages cf I st i = Val (Ok (N.of_nat (length (L1 ++ L2)))) /\
          d_has_usages cf I st i = Val (match L1 ++ L2 with [] => false | _ => true end) /\
          d_usages cf I st i = Val (Ok (map l_index (L1 ++ L2)))
     else d_count_usages cf I st i = Panic /\ d_has_usages cf I st i = Panic /\ d_usages cf I st i = Panic).

Section Stores.
  Variables (cf : cfg) (tops : tree_ops) (lops : list_ops).
  Hypothesis ENV : unit_env cf tops lops.

  Lemma u_spq st a i : uinv cf st a -> a_map a i <> None ->
    sp_query (unit_spec cf) a [c_any cf; i; c_any cf] /\ sp_query (unit_spec cf) a [c_any cf; c_any cf; i].
  Proof. intros K M. split; apply (e_spq cf tops lops ENV st a); auto; cbn; try lia; discriminate. Qed.
  Lemma u_sum st v A B : v <> c_any cf ->
    u_count cf st [c_any cf; v; c_any cf] = Val A -> u_count cf st [c_any cf; c_any cf; v] = Val B ->
    u_count cf st [c_any cf; v] = if A + B <=? c_tmax cf then Val (A + B) else Panic.
  Proof.
    pose proof (e_cf cf tops lops ENV) as CF. intros V. unfold u_count, qget.
    rewrite (ok_ipart _ CF), (ok_spart _ CF), (ok_tpart _ CF).
    change (N.to_nat 0) with 0%nat. change (N.to_nat 1) with 1%nat. change (N.to_nat 2) with 2%nat. cbn [nth_error obind].
    rewrite !N.eqb_refl. destruct (N.eqb_spec v (c_any cf)); [contradiction|]. cbn [andb]. intros -> ->. cbn [obind]. unfold cadd. now rewrite N.add_comm.
  Qed.
  Lemma s_spq st a i : srep cf st a -> a_map a i <> None ->
    sp_query (split_spec cf) a [c_any cf; i; c_any cf] /\ sp_query (split_spec cf) a [c_any cf; c_any cf; i].
  Proof.
    intros K M. destruct (exists_range cf _ _ _ (f_ok cf tops lops ENV) _ _ _ (proj1 ENV) K M) as (I0 & IA & _).
    pose proof (ok_iend _ (proj1 ENV)). assert (c_any cf <> 0) by lia. cbn. repeat split; intros; try contradiction; congruence.
  Qed.
  Lemma s_sum st v A B : v <> c_any cf ->
    s_count cf st [c_any cf; v; c_any cf] = Val A -> s_count cf st [c_any cf; c_any cf; v] = Val B ->
    s_count cf st [c_any cf; v] = if A + B <=? c_tmax cf then Val (A + B) else Panic.
  Proof.
    pose proof (proj1 ENV) as CF. intros V. unfold s_count, qget.
    rewrite (ok_ipart _ CF), (ok_spart _ CF), (ok_tpart _ CF).
    change (N.to_nat 0) with 0%nat. change (N.to_nat 1) with 1%nat. change (N.to_nat 2) with 2%nat. cbn [nth_error obind].
    rewrite !N.eqb_refl. destruct (s_is_virtual st v) as [vv| | |]; cbn [obind]; try discriminate.
    destruct (s_is_virtual st (c_any cf)); cbn [obind]; try discriminate.
    destruct (N.eqb_spec v (c_any cf)); [contradiction|]. cbn [andb].
    destruct vv; intros -> ->; cbn [obind]; reflexivity.
  Qed.
End Stores.

(** The counts are exact or the addition panics, and which of the two depends on nothing but the
    number of links. *)
Lemma L_C80_unit_partial cf tops lops st d i :
  let U := unit_links cf tops lops in
  unit_env cf tops lops -> u_hist cf tops lops st d -> linked U st i -> exact_counts cf U st i.
Proof.
  intros U ENV HH LI. destruct (u_hist_inv cf tops lops ENV st d HH) as (a & K & _). split.
  - exact (ov_count cf _ _ _ _ (proj1 ENV) (e_ok _ _ _ ENV) (u_spq cf tops lops ENV) (u_sum cf tops lops ENV) st a i K LI).
  - exact (ov_usages cf _ _ _ _ (proj1 ENV) (e_ok _ _ _ ENV) (u_spq cf tops lops ENV) st a i K LI).
Qed.
Lemma L_C80_split_partial cf tops lops st d i :
  let SL := split_links cf tops lops in
  unit_env cf tops lops -> s_hist cf tops lops st d -> linked SL st i -> exact_counts cf SL st i.
Proof.
  intros SL ENV HH LI. destruct (s_hist_inv cf tops lops ENV st d HH) as (a & K & _). split.
  - exact (ov_count cf _ _ _ _ (proj1 ENV) (f_ok _ _ _ ENV) (s_spq cf tops lops ENV) (s_sum cf tops lops ENV) st a i K LI).
  - exact (ov_usages cf _ _ _ _ (proj1 ENV) (f_ok _ _ _ ENV) (s_spq cf tops lops ENV) st a i K LI).
Qed.
(** As long as no two links have the same pair, the sums fit every address type. *)
Lemma L_C80_unit_distinct_partial cf tops lops st d i :
  let U := unit_links cf tops lops in
  unit_env cf tops lops -> u_hist cf tops lops st d -> distinct_pairs U st -> linked U st i ->
  (exists n, u_count cf st [c_any cf; i] = Val n) /\ (exists l, d_usages cf U st i = Val (Ok l) /\
    d_count_usages cf U st i = Val (Ok (N.of_nat (length l))) /\ d_has_usages cf U st i = Val (match l with [] => false | _ => true end)).
Proof.
  intros U ENV HH DP LI. destruct (u_hist_inv cf tops lops ENV st d HH) as (a & K & _). pose proof (e_ok _ _ _ ENV) as OK.
  assert (I0 : i <> 0).
  { pose proof LI as M. apply (ob_linked cf _ _ _ OK _ _ _ K) in M. now destruct (exists_range cf _ _ _ OK _ _ _ (proj1 ENV) K M). }
  destruct (L_C80_unit_partial cf tops lops st d i ENV HH LI) as [(L1 & L2 & N1 & N2 & O1 & O2 & C) (M1 & M2 & X1 & X2 & Y1 & Y2 & Z)].
  assert (F1 : N.of_nat (length (L1 ++ L2)) <= c_tmax cf).
  { apply (distinct_fits cf _ _ U _ (proj1 ENV) OK st a i); auto; [intros l A; now apply O1|intros l A; now apply O2]. }
  assert (F2 : N.of_nat (length (M1 ++ M2)) <= c_tmax cf).
  { apply (distinct_fits cf _ _ U _ (proj1 ENV) OK st a i); auto; intros l A; [apply Y1 in A|apply Y2 in A]; tauto. }
  apply N.leb_le in F1, F2. rewrite F1 in C. rewrite F2 in Z. split; [eexists; exact C|]. destruct Z as (Z1 & Z2 & Z3).
  exists (map l_index (M1 ++ M2)). rewrite map_length. split; [exact Z3|]. split; [exact Z1|]. etransitivity; [exact Z2|]. destruct (M1 ++ M2); reflexivity.
Qed.
Lemma L_C80_split_distinct_partial cf tops lops st d i :
  let SL := split_links cf tops lops in
  unit_env cf tops lops -> s_hist cf tops lops st d -> distinct_pairs SL st -> linked SL st i ->
  (exists n, s_count cf st [c_any cf; i] = Val n) /\ (exists l, d_usages cf SL st i = Val (Ok l) /\
    d_count_usages cf SL st i = Val (Ok (N.of_nat (length l))) /\ d_has_usages cf SL st i = Val (match l with [] => false | _ => true end)).
Proof.
  intros SL ENV HH DP LI. destruct (s_hist_inv cf tops lops ENV st d HH) as (a & K & _). pose proof (f_ok _ _ _ ENV) as OK.
  assert (I0 : i <> 0).
  { pose proof LI as M. apply (ob_linked cf _ _ _ OK _ _ _ K) in M. now destruct (exists_range cf _ _ _ OK _ _ _ (proj1 ENV) K M). }
  destruct (L_C80_split_partial cf tops lops st d i ENV HH LI) as [(L1 & L2 & N1 & N2 & O1 & O2 & C) (M1 & M2 & X1 & X2 & Y1 & Y2 & Z)].
  assert (F1 : N.of_nat (length (L1 ++ L2)) <= c_tmax cf).
  { apply (distinct_fits cf _ _ SL _ (proj1 ENV) OK st a i); auto; [intros l A; now apply O1|intros l A; now apply O2]. }
  assert (F2 : N.of_nat (length (M1 ++ M2)) <= c_tmax cf).
  { apply (distinct_fits cf _ _ SL _ (proj1 ENV) OK st a i); auto; intros l A; [apply Y1 in A|apply Y2 in A]; tauto. }
  apply N.leb_le in F1, F2. rewrite F1 in C. rewrite F2 in Z. split; [eexists; exact C|]. destruct Z as (Z1 & Z2 & Z3).
  exists (map l_index (M1 ++ M2)). rewrite map_length. split; [exact Z3|]. split; [exact Z1|]. etransitivity; [exact Z2|]. destruct (M1 ++ M2); reflexivity.
Qed.

(** The full statement fails: an address type up to 15, nine links with 1 on both sides. *)
Definition ov_cf : cfg := mkCfg 15 2 1 0 1 2 0 15 1 12 None.
Lemma ov_env : unit_env ov_cf ref_tree_ops ref_list_ops.
Proof.
  split; [|split; [exact ref_tree_ops_ok|exact ref_list_ops_ok]].
  constructor; cbn; try lia; auto; try discriminate.
Qed.
Definition ov_cmds : list cmd :=
  repeat Cr 9 ++ map (fun i => Up i 1 1) [1; 2; 3; 4; 5; 6; 7; 8; 9].
Definition ov_start : ust := match u_open ov_cf (u_blank (fun _ _ => true)) with Val (Ok st) => st | _ => u_blank (fun _ _ => true) end.
Definition ov_sstart : sst := match s_open ov_cf (s_blank all_grown) with Val (Ok st) => st | _ => s_blank all_grown end.
Definition ov_st : ust := match run (unit_links ov_cf ref_tree_ops ref_list_ops) ov_cmds ov_start with Some st => st | None => ov_start end.
Definition ov_sst : sst := match run (split_links ov_cf ref_tree_ops ref_list_ops) ov_cmds ov_sstart with Some st => st | None => ov_sstart end.
Lemma ov_reach : exists d, u_hist ov_cf ref_tree_ops ref_list_ops ov_st d.
Proof.
  assert (S0 : u_start ov_cf ov_start) by (exists (fun _ _ => true); vm_compute; reflexivity).
  assert (ER : run (unit_links ov_cf ref_tree_ops ref_list_ops) ov_cmds ov_start = Some ov_st) by (vm_compute; reflexivity).
  destruct (run_ok ov_cf ref_tree_ops ref_list_ops ov_env ov_cmds ov_start a_empty [] ov_st) as (d & HH & _); eauto.
  - now apply hist_start.
  - exact (u_start_inv _ _ _ ov_env _ S0).
Qed.
Lemma ov_sreach : exists d, s_hist ov_cf ref_tree_ops ref_list_ops ov_sst d.
Proof.
  assert (S0 : s_start ov_cf ov_sstart) by (exists all_grown; split; [intros ? ? ?; discriminate|vm_compute; reflexivity]).
  assert (ER : run (split_links ov_cf ref_tree_ops ref_list_ops) ov_cmds ov_sstart = Some ov_sst) by (vm_compute; reflexivity).
  destruct (srun_ok ov_cf ref_tree_ops ref_list_ops ov_env ov_cmds ov_sstart a_empty [] ov_sst) as (d & HH & _); eauto.
  - apply histc_start. exact S0.
  - exact (s_start_inv _ _ _ ov_env _ S0).
Qed.
Lemma L_C80_refuted :
  let U := unit_links ov_cf ref_tree_ops ref_list_ops in let SL := split_links ov_cf ref_tree_ops ref_list_ops in
  unit_env ov_cf ref_tree_ops ref_list_ops /\
  (exists st d, u_hist ov_cf ref_tree_ops ref_list_ops st d /\ is_link U st 1 1 1 /\ u_count ov_cf st [] = Val 9 /\
     u_count ov_cf st [c_any ov_cf; 1] = Panic /\ d_count_usages ov_cf U st 1 = Panic /\ d_has_usages ov_cf U st 1 = Panic /\ d_usages ov_cf U st 1 = Panic) /\
  (exists st d, s_hist ov_cf ref_tree_ops ref_list_ops st d /\ is_link SL st 1 1 1 /\ s_count ov_cf st [] = Val 9 /\
     s_count ov_cf st [c_any ov_cf; 1] = Panic /\ d_count_usages ov_cf SL st 1 = Panic /\ d_has_usages ov_cf SL st 1 = Panic /\ d_usages ov_cf SL st 1 = Panic).
Proof.
  cbv zeta. split; [exact ov_env|]. split.
  - destruct ov_reach as [d HH]. exists ov_st, d. split; [exact HH|]. unfold is_link. repeat split; vm_compute; reflexivity.
  - destruct ov_sreach as [d HH]. exists ov_sst, d. split; [exact HH|]. unfold is_link. repeat split; vm_compute; reflexivity.
Qed.
(** The hypotheses above are met, also in an address type without room for twice the links. *)
Lemma L_C80_nonvacuous :
  unit_env ov_cf ref_tree_ops ref_list_ops /\ ~ cfg_room ov_cf /\
  (exists st d, u_hist ov_cf ref_tree_ops ref_list_ops st d /\ linked (unit_links ov_cf ref_tree_ops ref_list_ops) st 1) /\
  (exists st d, s_hist ov_cf ref_tree_ops ref_list_ops st d /\ linked (split_links ov_cf ref_tree_ops ref_list_ops) st 1) /\
  (exists st d, u_hist ex_cf ref_tree_ops ref_list_ops st d /\ distinct_pairs ex_U st /\ linked ex_U st 1 /\ u_count ex_cf st [c_any ex_cf; 1] = Val 4) /\
  (exists st d, s_hist ex_cf ref_tree_ops ref_list_ops st d /\ distinct_pairs ex_S st /\ linked ex_S st 1 /\ s_count ex_cf st [c_any ex_cf; 1] = Val 4).
Proof.
  split; [exact ov_env|]. split; [intros [_ RD]; cbn in RD; lia|]. split; [|split; [|split]].
  - destruct ov_reach as [d HH]. exists ov_st, d. split; [exact HH|]. exists 1, 1. unfold is_link. vm_compute; reflexivity.
  - destruct ov_sreach as [d HH]. exists ov_sst, d. split; [exact HH|]. exists 1, 1. unfold is_link. vm_compute; reflexivity.
  - destruct (ex_reach ex3) as (d & HH & _); [vm_compute; reflexivity..|]. exists (ex_st ex3), d. split; [exact HH|].
    split; [apply ex_distinct; vm_compute; reflexivity|]. split; [exists 1, 1; unfold is_link|]; vm_compute; reflexivity.
  - destruct ex3_sreach as (d & HH & DP & L1 & _). exists (ex_sst ex3), d. split; [exact HH|]. split; [exact DP|].
    split; [exists 1, 1; exact L1|]. vm_compute; reflexivity.
Qed.
