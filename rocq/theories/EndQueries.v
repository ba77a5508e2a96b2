(** Deleting the links at one end of a link: delete_query_with given [[any; v]] (C81). *)
From Coq Require Import NArith List Bool Lia Permutation.
From Verif Require Import Base Trees Lists Spec Iface UnitModel UnitInv UnitOps UnitLinks LinkModel SplitModel Forest
  SplitInv SplitReads SplitOps SplitWrites SplitLinks Doublets Obs DoubletsOK Hist Claims TreeImpl UnitHist SplitHist
  UnitClaims SplitClaims DefaultClaims SplitDefaults.
Import ListNotations.
Open Scope N_scope.

Lemma last_split {A} (eq : forall x y : A, {x = y} + {x <> y}) (x : A) l : In x l ->
  exists l1 l2, l = l1 ++ x :: l2 /\ ~ In x l2.
Proof.
  induction l as [|y l IH]; [contradiction|]. intros IN. destruct (in_dec eq x l) as [K|K].
  - destruct (IH K) as (l1 & l2 & -> & N2). exists (y :: l1), l2. auto.
  - destruct IN as [->|IN]; [|contradiction]. exists [], l. auto.
Qed.

Definition link_dec (x y : link) : {x = y} + {x <> y}.
Proof. decide equality; apply N.eq_dec. Defined.

(** A list that becomes duplicate-free by removing one occurrence of an element that occurs
    twice: cut before the second occurrence from the end. *)
Lemma doubled_split (x : link) L M : Permutation L (x :: M) -> NoDup M -> In x M ->
  exists A B, L = A ++ x :: B /\ NoDup B /\ In x B /\ (forall y, In y B -> In y M).
Proof.
  intros P ND IN.
  assert (IL : In x L) by (eapply Permutation_in; [symmetry; exact P|]; now left).
  destruct (last_split link_dec x L IL) as (L1 & L2 & -> & N2).
  assert (P' : Permutation (L1 ++ L2) M).
  { apply Permutation_cons_inv with (a := x). rewrite <- P. apply Permutation_middle. }
  assert (I1 : In x L1).
  { apply (Permutation_in x (Permutation_sym P')) in IN. apply in_app_or in IN as [K|K]; tauto. }
  destruct (last_split link_dec x L1 I1) as (A & B & -> & NB).
  assert (ND' : NoDup ((A ++ x :: B) ++ L2)) by (eapply Permutation_NoDup; [symmetry; exact P'|exact ND]).
  rewrite <- app_assoc in ND'. cbn [app] in ND'.
  exists A, (B ++ x :: L2). rewrite <- app_assoc. cbn [app]. split; [reflexivity|].
  assert (PB : Permutation (B ++ x :: L2) (x :: B ++ L2)) by (symmetry; apply Permutation_middle).
  split. { eapply Permutation_NoDup; [symmetry; exact PB|]. now apply NoDup_app_inv in ND'. }
  split; [apply in_or_app; right; now left|].
  intros y Hy. apply (Permutation_in y P'). rewrite <- app_assoc. cbn [app].
  apply in_or_app. right. now apply (Permutation_in y PB).
Qed.

Section Generic.
  Variables (cf : cfg) (S : Type) (sp : store_spec) (I : LinksI S) (R : S -> astate -> Prop).
  Hypothesis CF : cfg_ok cf.
  Hypothesis IOK : links_ok cf sp I R.
  Notation any := (c_any cf).

  Definition at_end (v : N) (l : link) : Prop := l_source l = v \/ l_target l = v.
  Notation srcs a v := (filter (fun l => l_source l =? v) (alinks a)).
  Notation tgts a v := (filter (fun l => l_target l =? v) (alinks a)).

  Lemma ends_perm a v L : v <> 0 -> v <> any -> visits_ok any [any; v] a L -> Permutation L (srcs a v ++ tgts a v).
  Proof.
    intros V0 VA [P _]. cbn [avisits] in P. rewrite N.eqb_refl in P.
    destruct (N.eqb_spec v any); [contradiction|]. destruct (N.eqb_spec v 0); [contradiction|]. exact P.
  Qed.
  Lemma ends_in st a v l : R st a -> (In l (srcs a v ++ tgts a v) <-> li_get I st (l_index l) = Val (Some l) /\ at_end v l).
  Proof.
    intros HR. pose proof (lo_wf _ _ _ _ IOK _ _ HR) as W.
    assert (E : In l (alinks a) <-> li_get I st (l_index l) = Val (Some l)).
    { destruct l as [i s t]. rewrite (in_alinks a i s t W). symmetry. apply (ob_link cf sp I R IOK _ _ _ _ _ HR). }
    unfold at_end. rewrite in_app_iff, !filter_In, !N.eqb_eq, E. tauto.
  Qed.
  Lemma ends_once st a v : R st a -> (forall x, ~ is_link I st x v v) -> NoDup (srcs a v ++ tgts a v).
  Proof.
    intros HR NO. pose proof (lo_wf _ _ _ _ IOK _ _ HR) as W. pose proof (nodup_alinks a) as ND.
    apply NoDup_app_intro; auto using NoDup_filter.
    intros [i s t] K1 K2. apply filter_In in K1 as [K1 E1], K2 as [_ E2]. apply N.eqb_eq in E1, E2. cbn in E1, E2. subst s t.
    apply (in_alinks a i v v W) in K1. now apply (NO i), (ob_link cf sp I R IOK _ _ _ _ _ HR).
  Qed.
  Lemma ends_twice st a v x : R st a -> is_link I st x v v -> (forall j, is_link I st j v v -> j = x) ->
    exists M, Permutation (srcs a v ++ tgts a v) (mkLink x v v :: M) /\ NoDup M /\ In (mkLink x v v) M.
  Proof.
    intros HR LX ON. pose proof (lo_wf _ _ _ _ IOK _ _ HR) as W. pose proof (nodup_alinks a) as ND.
    set (T := filter (fun l => (l_target l =? v) && negb (l_source l =? v)) (alinks a)).
    assert (IX : In (mkLink x v v) (alinks a)).
    { apply (in_alinks a x v v W). now apply (ob_link cf sp I R IOK _ _ _ _ _ HR). }
    assert (PT : Permutation (tgts a v) (mkLink x v v :: T)).
    { apply NoDup_Permutation; auto using NoDup_filter.
      - constructor; [|unfold T; auto using NoDup_filter]. unfold T. rewrite filter_In. cbn. rewrite N.eqb_refl. intuition discriminate.
      - intros l. cbn [In]. unfold T. rewrite !filter_In, andb_true_iff, negb_true_iff, N.eqb_neq, !N.eqb_eq. split.
        + intros [K1 K2]. destruct (N.eq_dec (l_source l) v) as [K3|K3]; [left|auto].
          destruct l as [i s t]. cbn in K2, K3. subst s t. f_equal. symmetry. apply ON.
          apply (ob_link cf sp I R IOK _ _ _ _ _ HR). now apply (in_alinks a i v v W).
        + intros [<-|K]; [auto|tauto]. }
    exists (srcs a v ++ T). split; [|split].
    - rewrite PT. symmetry. apply Permutation_middle.
    - apply NoDup_app_intro; unfold T; auto using NoDup_filter. intros l K1 K2. apply filter_In in K1 as [_ K1], K2 as [_ K2].
      rewrite K1 in K2. now rewrite andb_false_r in K2.
    - apply in_or_app. left. apply filter_In. cbn. rewrite N.eqb_refl. auto.
  Qed.

  (** The deletion list up to the second occurrence of one link. *)
  Lemma delete_list_stops l1 l2 : forall st a j, R st a -> del_ok sp a l1 -> a_map (a_deletes a l1) j = None ->
    exists st', R st' (a_deletes a l1) /\
      forall H B (h : uwrite H B) x,
        d_delete_list I (fuse_call h) (l1 ++ j :: l2) st (x, false) =
        Val (st', (told h (links_at a l1) x, false), Err (NotExists j)).
  Proof.
    induction l1 as [|i l1 IH]; intros st a j HR D M.
    - exists st. split; auto. intros. cbn [app d_delete_list].
      rewrite (proj1 (d_delete_none cf sp I R IOK _ _ _ HR M)). reflexivity.
    - pose proof (del_ok_nodup sp _ _ D) as ND. inversion ND as [|? ? NI _]; subst.
      destruct D as (MI & P & D). destruct (a_map a i) as [[s t]|] eqn:E; [|congruence].
      destruct (d_delete_with_ok cf sp I R IOK _ _ _ _ _ HR E P) as (st1 & R1 & K & _).
      destruct (IH _ _ _ R1 D M) as (st2 & R2 & K2). exists st2. split; auto.
      intros H B h x. cbn [app d_delete_list]. rewrite K. cbn [obind fuse_call].
      cbn [links_at flat_map]. rewrite E. fold (links_at a l1). cbn [app told fold_left].
      destruct (h x (mkLink i s t) nothing) as [x' [r|]]; cbn [fst snd obind];
        rewrite K2, links_at_delete by auto; reflexivity.
  Qed.

  Variable P : astate -> N -> Prop.
  Hypothesis DS : del_safe sp P.

  Lemma g_ends st a v L : R st a -> v <> 0 -> v <> any -> visits I st [any; v] L -> visits_ok any [any; v] a L ->
    (forall l, li_get I st (l_index l) = Val (Some l) -> at_end v l -> P a (l_index l)) ->
    (forall x, ~ is_link I st x v v) ->
    exists st' a', R st' a' /\ NoDup L /\ (forall l, In l L <-> li_get I st (l_index l) = Val (Some l) /\ at_end v l) /\
      removed I st st' L /\
      forall H B (h : uwrite H B) x, d_delete_query_with I h [any; v] st x = Val (st', told h (rev L) x, Ok tt).
  Proof.
    intros HR V0 VA V VO DP NO. pose proof (ends_perm a v L V0 VA VO) as PL.
    assert (IN : forall l, In l L <-> li_get I st (l_index l) = Val (Some l) /\ at_end v l).
    { intros l. rewrite <- (ends_in st a v l HR). split; apply Permutation_in; auto. now symmetry. }
    assert (ND : NoDup L) by (eapply Permutation_NoDup; [symmetry; exact PL|]; eapply ends_once; eauto).
    destruct (g_delete_visits_w cf sp I R IOK P st a [any; v] L DS HR) as (st' & K' & RM & T); auto.
    { intros l Hl. apply IN in Hl. now apply DP. }
    { intros l Hl. now apply IN in Hl. }
    exists st', (a_deletes a (rev (map l_index L))). auto.
  Qed.

  Lemma g_ends_doubled st a v x L : R st a -> v <> 0 -> v <> any -> visits I st [any; v] L -> visits_ok any [any; v] a L ->
    (forall l, li_get I st (l_index l) = Val (Some l) -> at_end v l -> P a (l_index l)) ->
    is_link I st x v v ->
    exists st' a' D, R st' a' /\ NoDup D /\ In (mkLink x v v) D /\
      (forall l, In l D -> li_get I st (l_index l) = Val (Some l) /\ at_end v l) /\
      removed I st st' D /\
      forall H B (h : uwrite H B) z, d_delete_query_with I h [any; v] st z = Val (st', told h D z, Err (NotExists x)).
  Proof.
    intros HR V0 VA V VO DP LX. pose proof (lo_wf _ _ _ _ IOK _ _ HR) as W. pose proof (ends_perm a v L V0 VA VO) as PL.
    assert (ON : forall j, is_link I st j v v -> j = x).
    { intros j LJ. apply (ob_link cf sp I R IOK _ _ _ _ _ HR) in LX as MX. apply (ob_link cf sp I R IOK _ _ _ _ _ HR) in LJ.
      destruct (ds_det _ _ DS a x) as [Z|Z].
      - apply (DP (mkLink x v v)); [exact LX|left; reflexivity].
      - congruence.
      - exact (Z j (v, v) MX LJ). }
    destruct (ends_twice st a v x HR LX ON) as (M & PM & NM & IM).
    destruct (doubled_split (mkLink x v v) L M) as (A & B & -> & NB & IB & SB); [now rewrite PL|auto|auto|].
    assert (GB : forall l, In l B -> li_get I st (l_index l) = Val (Some l) /\ at_end v l).
    { intros l Hl. apply (ends_in st a v l HR). apply (Permutation_in l (Permutation_sym PM)). right. auto. }
    assert (KB : forall l, In l B -> a_map a (l_index l) = Some (l_source l, l_target l)).
    { intros [i s t] Hl. apply (ob_link cf sp I R IOK _ _ _ _ _ HR). apply GB in Hl as [Hl _]. exact Hl. }
    assert (DO : del_ok sp a (rev (map l_index B))).
    { apply (del_ok_safe sp P _ DS).
      - intros i Hi. apply in_rev, in_map_iff in Hi as (l & <- & Hl). apply GB in Hl as [? ?]. now apply DP.
      - apply NoDup_rev. now apply (nodup_idx a).
      - intros i Hi. apply in_rev, in_map_iff in Hi as (l & <- & Hl). rewrite KB by auto. discriminate. }
    assert (MX : a_map (a_deletes a (rev (map l_index B))) x = None).
    { rewrite a_deletes_map. destruct (in_dec N.eq_dec x (rev (map l_index B))) as [|NI]; auto. exfalso. apply NI.
      apply in_rev. rewrite rev_involutive. apply in_map_iff. exists (mkLink x v v). auto. }
    destruct (delete_list_stops _ (rev (map l_index A)) _ _ _ HR DO MX) as (st' & R' & G).
    exists st', (a_deletes a (rev (map l_index B))), (rev B). split; [exact R'|]. split; [now apply NoDup_rev|].
    split; [now apply -> in_rev|]. split; [intros l Hl; apply GB; now apply in_rev|].
    split. { apply (ob_removed cf sp I R IOK _ _ _ _ _ HR R'). intros j. now rewrite map_rev. }
    intros H C h z. unfold d_delete_query_with, d_count_by. rewrite (proj2 V). cbn [obind].
    rewrite (d_each_by_ok _ _ _ _ _ _ _ _ V), urun_map. cbn [obind app].
    rewrite map_app, rev_app_distr. cbn [map rev l_index]. rewrite <- app_assoc. cbn [app]. rewrite G. cbn [obind].
    rewrite <- map_rev, links_at_self; auto. intros l Hl. apply KB. now apply in_rev.
  Qed.
End Generic.

(** * C81: unit store *)
Lemma L_C81_unit_partial cf tops lops st d v :
  let U := unit_links cf tops lops in
  unit_env cf tops lops -> u_hist cf tops lops st d -> 2 * c_iend cf <= c_tmax cf -> v <> 0 -> v <> c_any cf ->
  (forall l, u_get_link cf st (l_index l) = Val (Some l) -> l_source l = v \/ l_target l = v -> separable U st (l_index l)) ->
  (forall x, ~ is_link U st x v v) ->
  exists st' L, (exists d', u_hist cf tops lops st' d') /\ NoDup L /\
    (forall l, In l L <-> u_get_link cf st (l_index l) = Val (Some l) /\ (l_source l = v \/ l_target l = v)) /\
    removed U st st' L /\
    forall H B (h : uwrite H B) x, d_delete_query_with U h [c_any cf; v] st x = Val (st', told h (rev L) x, Ok tt).
Proof.
  intros U ENV HH DB V0 VA DP NO. uopen a K D. pose proof (uh_links_ok _ _ _ ENV) as OK.
  destruct (visits_ex cf _ U _ OK st a [c_any cf; v] K) as (L & V & VO).
  { apply (i_spq _ _ _ ENV st a _ K); [cbn; lia|auto]. }
  destruct (g_ends cf _ _ U _ OK detachable (spd_safe _ (e_spd cf)) st a v L) as (st' & a' & K' & ND & IN & RM & G); auto.
  { intros l G1 G2. apply (ob_sep cf _ U _ OK _ _ _ K). auto. }
  exists st', L. split; [apply K'|]. auto.
Qed.
Lemma L_C81_unit_doubled cf tops lops st d v x :
  let U := unit_links cf tops lops in
  unit_env cf tops lops -> u_hist cf tops lops st d -> 2 * c_iend cf <= c_tmax cf -> v <> 0 -> v <> c_any cf ->
  (forall l, u_get_link cf st (l_index l) = Val (Some l) -> l_source l = v \/ l_target l = v -> separable U st (l_index l)) ->
  is_link U st x v v ->
  exists st' L, (exists d', u_hist cf tops lops st' d') /\ NoDup L /\ In (mkLink x v v) L /\
    (forall l, In l L -> u_get_link cf st (l_index l) = Val (Some l) /\ (l_source l = v \/ l_target l = v)) /\
    removed U st st' L /\
    forall H B (h : uwrite H B) z, d_delete_query_with U h [c_any cf; v] st z = Val (st', told h L z, Err (NotExists x)).
Proof.
  intros U ENV HH DB V0 VA DP LX. uopen a K D. pose proof (uh_links_ok _ _ _ ENV) as OK.
  destruct (visits_ex cf _ U _ OK st a [c_any cf; v] K) as (L & V & VO).
  { apply (i_spq _ _ _ ENV st a _ K); [cbn; lia|auto]. }
  destruct (g_ends_doubled cf _ _ U _ OK detachable (spd_safe _ (e_spd cf)) st a v x L) as (st' & a' & M & K' & ND & IX & IN & RM & G); auto.
  { intros l G1 G2. apply (ob_sep cf _ U _ OK _ _ _ K). auto. }
  exists st', M. split; [apply K'|]. auto.
Qed.
Lemma L_C81_unit_null cf tops lops st d q :
  let U := unit_links cf tops lops in
  unit_env cf tops lops -> u_hist cf tops lops st d -> 2 * c_iend cf <= c_tmax cf -> (length q <= 3)%nat ->
  null_query (c_any cf) q ->
  forall H B (h : uwrite H B) x, d_delete_query_with U h q st x = Val (st, x, Ok tt).
Proof.
  intros U ENV HH DB LQ NQ H B h x. uopen a K D. pose proof (uh_links_ok _ _ _ ENV) as OK. pose proof (any0 cf (e_cf _ _ _ ENV)) as A0.
  destruct (visits_ex cf _ U _ OK st a q K) as (L & V & VO).
  { apply (i_spq _ _ _ ENV st a _ K); auto. }
  assert (E : avisits (c_any cf) q a = []).
  { destruct q as [|i [|s [|t [|? ?]]]]; cbn [null_query avisits] in *; try tauto.
    - destruct NQ as [-> ->]. rewrite N.eqb_refl. destruct (N.eqb_spec 0 (c_any cf)); [congruence|reflexivity].
    - destruct NQ as [-> [->|[-> ->]]]; rewrite !N.eqb_refl; destruct (N.eqb_spec 0 (c_any cf)); try congruence; cbn [andb].
      + destruct (t =? c_any cf); reflexivity.
      + reflexivity. }
  assert (L = []) as ->.
  { unfold visits_ok in VO. rewrite E in VO. destruct (is_search (c_any cf) q).
    - destruct VO as [[-> _]|(l & _ & [])]. reflexivity.
    - destruct VO as [P _]. symmetry in P. now apply Permutation_nil. }
  unfold d_delete_query_with, d_count_by. rewrite (proj2 V). cbn [obind].
  rewrite (d_each_by_ok _ _ _ _ _ _ _ _ V), urun_map. reflexivity.
Qed.

(** * C81: split store *)
Lemma L_C81_split_partial cf tops lops st d v :
  let SL := split_links cf tops lops in
  unit_env cf tops lops -> s_hist cf tops lops st d -> 2 * c_iend cf <= c_tmax cf -> v <> 0 -> v <> c_any cf ->
  linked SL st v \/ no_hole SL st \/ outer_source SL st ->
  (forall l, s_get_link cf st (l_index l) = Val (Some l) -> l_source l = v \/ l_target l = v -> s_okd SL st (l_index l)) ->
  (forall x, ~ is_link SL st x v v) ->
  exists st' L, (exists d', s_hist cf tops lops st' d') /\ NoDup L /\
    (forall l, In l L <-> s_get_link cf st (l_index l) = Val (Some l) /\ (l_source l = v \/ l_target l = v)) /\
    removed SL st st' L /\
    forall H B (h : uwrite H B) x, d_delete_query_with SL h [c_any cf; v] st x = Val (st', told h (rev L) x, Ok tt).
Proof.
  intros SL ENV HH DB V0 VA C DP NO. shopen a K D. pose proof (sh_links_ok _ _ _ ENV) as OK.
  destruct (visits_ex cf _ SL _ OK st a [c_any cf; v] K) as (L & V & VO).
  { apply (good_query cf tops lops ENV st a _ K DB); [cbn; lia|cbn; auto|cbn; auto]. }
  destruct (g_ends cf _ _ SL _ OK _ (sh_del_safe cf) st a v L) as (st' & a' & K' & ND & IN & RM & G); auto.
  { intros l G1 G2. apply (okd_at cf tops lops ENV st a (l_index l) K); [|now apply DP].
    exists (l_source l), (l_target l). destruct l; exact G1. }
  exists st', L. split; [apply K'|]. auto.
Qed.
Lemma L_C81_split_doubled cf tops lops st d v x :
  let SL := split_links cf tops lops in
  unit_env cf tops lops -> s_hist cf tops lops st d -> 2 * c_iend cf <= c_tmax cf -> v <> 0 -> v <> c_any cf ->
  linked SL st v \/ no_hole SL st \/ outer_source SL st ->
  (forall l, s_get_link cf st (l_index l) = Val (Some l) -> l_source l = v \/ l_target l = v -> s_okd SL st (l_index l)) ->
  is_link SL st x v v ->
  exists st' L, (exists d', s_hist cf tops lops st' d') /\ NoDup L /\ In (mkLink x v v) L /\
    (forall l, In l L -> s_get_link cf st (l_index l) = Val (Some l) /\ (l_source l = v \/ l_target l = v)) /\
    removed SL st st' L /\
    forall H B (h : uwrite H B) z, d_delete_query_with SL h [c_any cf; v] st z = Val (st', told h L z, Err (NotExists x)).
Proof.
  intros SL ENV HH DB V0 VA C DP LX. shopen a K D. pose proof (sh_links_ok _ _ _ ENV) as OK.
  destruct (visits_ex cf _ SL _ OK st a [c_any cf; v] K) as (L & V & VO).
  { apply (good_query cf tops lops ENV st a _ K DB); [cbn; lia|cbn; auto|cbn; auto]. }
  destruct (g_ends_doubled cf _ _ SL _ OK _ (sh_del_safe cf) st a v x L) as (st' & a' & M & K' & ND & IX & IN & RM & G); auto.
  { intros l G1 G2. apply (okd_at cf tops lops ENV st a (l_index l) K); [|now apply DP].
    exists (l_source l), (l_target l). destruct l; exact G1. }
  exists st', M. split; [apply K'|]. auto.
Qed.

Definition ex2e : list cmd := [Cr; Cr; Up 1 2 1; Up 2 2 2].
Definition collect : uwrite (list link) unit := fun v b _ => (v ++ [b], None).

Lemma L_C81_refuted : exists st d st', u_hist ex_cf ref_tree_ops ref_list_ops st d /\ distinct_pairs ex_U st /\
  is_link ex_U st 1 2 1 /\ is_link ex_U st 2 2 2 /\
  d_delete_query_with ex_U collect [200; 2] st [] = Val (st', [mkLink 2 2 2], Err (NotExists 2)) /\
  is_link ex_U st' 1 2 1.
Proof.
  destruct (ex_reach ex2e) as (d & HH & K); [vm_compute; reflexivity..|]. exists (ex_st ex2e), d.
  exists (match d_delete_query_with ex_U collect [200; 2] (ex_st ex2e) [] with Val (s, _, _) => s | _ => ex_start end).
  sp. split; [apply ex_distinct; vm_compute; reflexivity|]. conj; vm_compute; reflexivity.
Qed.
Lemma L_C81_split_refuted : exists st d st', s_hist ex_cf ref_tree_ops ref_list_ops st d /\ distinct_pairs ex_S st /\
  is_link ex_S st 1 2 1 /\ is_link ex_S st 2 2 2 /\
  d_delete_query_with ex_S collect [200; 2] st [] = Val (st', [mkLink 2 2 2], Err (NotExists 2)) /\
  is_link ex_S st' 1 2 1.
Proof.
  destruct (ex_sreach ex2e) as (d & HH & K); [vm_compute; reflexivity..|]. exists (ex_sst ex2e), d.
  exists (match d_delete_query_with ex_S collect [200; 2] (ex_sst ex2e) [] with Val (s, _, _) => s | _ => ex_sstart end).
  sp. split; [apply ex_sdistinct; vm_compute; reflexivity|]. conj; vm_compute; reflexivity.
Qed.
(** A link that refers to null is not found by the query for it. *)
Lemma L_C81_null_refuted : exists st d, u_hist ex_cf ref_tree_ops ref_list_ops st d /\
  is_link ex_U st 2 0 0 /\ query_match 200 [200; 0] (mkLink 2 0 0) /\
  d_delete_query_with ex_U collect [200; 0] st [] = Val (st, [], Ok tt).
Proof.
  destruct (ex_reach [Cr; Cr; Up 1 1 1]) as (d & HH & K); [vm_compute; reflexivity..|]. exists (ex_st [Cr; Cr; Up 1 1 1]), d.
  sp. split; [vm_compute; reflexivity|]. split; [unfold query_match, part_match; cbn; auto|]. vm_compute; reflexivity.
Qed.
Lemma L_C81_nonvacuous : exists st d st', u_hist ex_cf ref_tree_ops ref_list_ops st d /\ 2 * c_iend ex_cf <= c_tmax ex_cf /\
  (forall l, u_get_link ex_cf st (l_index l) = Val (Some l) -> l_source l = 2 \/ l_target l = 2 -> separable ex_U st (l_index l)) /\
  (forall x, ~ is_link ex_U st x 2 2) /\ is_link ex_U st 1 1 1 /\ is_link ex_U st 2 1 2 /\ is_link ex_U st 3 2 1 /\
  d_delete_query_with ex_U collect [200; 2] st [] = Val (st', [mkLink 2 1 2; mkLink 3 2 1], Ok tt) /\
  d_delete_query_with ex_U collect [200; 1] st [] =
    Val (match d_delete_query_with ex_U collect [200; 1] st [] with Val (s, _, _) => s | _ => st end,
         [mkLink 3 2 1; mkLink 1 1 1; mkLink 2 1 2], Err (NotExists 1)).
Proof.
  destruct (ex_reach ex3) as (d & HH & K); [vm_compute; reflexivity..|]. exists (ex_st ex3), d.
  exists (match d_delete_query_with ex_U collect [200; 2] (ex_st ex3) [] with Val (s, _, _) => s | _ => ex_start end).
  sp. split; [vm_compute; discriminate|]. split.
  { intros l _ _. apply distinct_separable, ex_distinct; vm_compute; reflexivity. }
  split.
  { intros x LX. assert (LK : linked ex_U (ex_st ex3) x) by (eexists _, _; exact LX).
    apply (ob_top ex_cf _ ex_U _ (e_ok _ _ _ ex_env) _ _ K) in LK. each_index LK; vm_compute in LX; discriminate. }
  conj; vm_compute; reflexivity.
Qed.
Lemma L_C81_split_nonvacuous : exists st d st', s_hist ex_cf ref_tree_ops ref_list_ops st d /\ linked ex_S st 2 /\
  (forall l, s_get_link ex_cf st (l_index l) = Val (Some l) -> l_source l = 2 \/ l_target l = 2 -> s_okd ex_S st (l_index l)) /\
  (forall x, ~ is_link ex_S st x 2 2) /\ is_link ex_S st 1 1 1 /\ is_link ex_S st 2 1 2 /\ is_link ex_S st 3 2 1 /\
  d_delete_query_with ex_S collect [200; 2] st [] = Val (st', [mkLink 2 1 2; mkLink 3 2 1], Ok tt) /\
  d_delete_query_with ex_S collect [200; 1] st [] =
    Val (match d_delete_query_with ex_S collect [200; 1] st [] with Val (s, _, _) => s | _ => st end,
         [mkLink 3 2 1; mkLink 1 1 1; mkLink 2 1 2], Err (NotExists 1)).
Proof.
  destruct (ex_sreach ex3) as (d & HH & K); [vm_compute; reflexivity..|]. exists (ex_sst ex3), d.
  exists (match d_delete_query_with ex_S collect [200; 2] (ex_sst ex3) [] with Val (s, _, _) => s | _ => ex_sstart end).
  sp. split; [exists 1, 2; vm_compute; reflexivity|]. split.
  { intros l _ _. apply s_okd_distinct, ex_sdistinct; vm_compute; reflexivity. }
  split.
  { intros x LX. assert (LK : linked ex_S (ex_sst ex3) x) by (eexists _, _; exact LX).
    apply (ob_top ex_cf _ ex_S _ (f_ok _ _ _ ex_env) _ _ K) in LK. each_index LK; vm_compute in LX; discriminate. }
  conj; vm_compute; reflexivity.
Qed.
