(** The repository's benchmark programs, for every number of links and every choice of the ones
    deleted (proofs; the statements are repeated in PropBench.v). *)
From Coq Require Import NArith List Bool Lia Permutation Sorted.
From Verif Require Import Base Trees Lists Spec Iface UnitModel UnitInv UnitOps UnitLinks LinkModel SplitModel Forest
  SplitInv SplitReads SplitOps SplitWrites SplitLinks Doublets Obs DoubletsOK Hist Claims TreeImpl UnitHist SplitHist
  SplitClaims UnitClaims DefaultClaims SplitDefaults RandomTest MemUse.
Import ListNotations.
Open Scope N_scope.

Section Programs.
  Variable (cf : cfg).
  Context {S : Type}.
  Variable (I : LinksI S).

  (** [for _ in 0..n { store.create_point().unwrap(); }]: doublets/benches/iter.rs:10-12, 55-57.
      An error given to unwrap is returned. *)
  Fixpoint create_points (n : nat) (st : S) : out (S * result unit) :=
    match n with
    | O => Val (st, Ok tt)
    | Datatypes.S n =>
        let* (st', r) := d_create_point I st in
        match r with
        | Err e => Val (st', Err e)
        | Ok _ => create_points n st'
        end
    end.
  (** [for_each(|x| { store.delete(x).unwrap(); })]: iter.rs:14-16 *)
  Fixpoint delete_each (xs : list N) (st : S) : out (S * result unit) :=
    match xs with
    | [] => Val (st, Ok tt)
    | x :: xs =>
        let* (st', r) := d_delete I x st in
        match r with
        | Err e => Val (st', Err e)
        | Ok _ => delete_each xs st'
        end
    end.
  (** What [iter] does before it measures: iter.rs:7-16, with the number of links and the filter of
      the deleted ones as parameters. *)
  Definition bench_setup (n : nat) (f : N -> bool) (st : S) : out (S * result unit) :=
    let* (st', r) := create_points n st in
    match r with
    | Err e => Val (st', Err e)
    | Ok _ => delete_each (filter f (map N.of_nat (seq 1 n))) st'
    end.
  (** The closure of each_with_vec: iter.rs:34-41. The capacity asked for and the links pushed. *)
  Definition bench_vec (st : S) : out (N * list link) :=
    let* n := d_count I st in
    let* (v, _) := d_each I (B := unit) (fun v l => (v ++ [l], None)) st [] in
    Val (n, v).
  (** [create_point]: iter.rs:45-60; the harness decides how many rounds there are. *)
  Fixpoint bench_create (rounds n : nat) (st : S) : out (S * result unit) :=
    match rounds with
    | O => Val (st, Ok tt)
    | Datatypes.S k =>
        let* (st', r) := create_points n st in
        match r with
        | Err e => Val (st', Err e)
        | Ok _ => bench_create k n st'
        end
    end.
End Programs.

Section Generic.
  Variables (cf : cfg) (sp : store_spec).
  Context {S : Type}.
  Variables (I : LinksI S) (R : S -> astate -> Prop).
  Hypothesis OK : links_ok cf sp I R.
  Hypothesis DD : del_distinct sp.
  Hypothesis CRE : forall st a, R st a -> dense a -> sp_create sp a.
  Hypothesis UPD : forall a s t, awf a -> s <> 0 -> t <> 0 -> sp_update sp (a_create a) (a_next a) s t.
  Hypothesis QRY : forall st a q, R st a -> q = [] \/ q = [c_any cf; c_any cf; c_any cf] -> sp_query sp a q.

  (** The store holds the points 1 to k. *)
  Definition points (k : N) (a : astate) : Prop :=
    a_free a = [] /\ a_top a = k /\ forall i p, a_map a i = Some p -> p = (i, i).

  Lemma points_at k a i : awf a -> points k a -> a_map a i = if (1 <=? i) && (i <=? k) then Some (i, i) else None.
  Proof.
    intros W (EF & ET & P). destruct (a_map a i) as [p|] eqn:E.
    - rewrite (P _ _ E). assert (NN : a_map a i <> None) by congruence. apply (wf_dom _ W) in NN.
      destruct (N.leb_spec 1 i), (N.leb_spec i k); cbn; auto; lia.
    - destruct (N.leb_spec 1 i), (N.leb_spec i k); cbn; auto. exfalso.
      assert (NN : a_map a i <> None); [|congruence]. apply (wf_dom _ W). rewrite EF. split; [lia|]. intros [].
  Qed.
  Lemma only_points_distinct a : (forall i p, a_map a i = Some p -> p = (i, i)) -> adistinct a.
  Proof. intros P i j p MI MJ _. pose proof (P _ _ MI) as ->. apply P in MJ. congruence. Qed.
  Lemma points_dense k a : awf a -> points k a -> dense a.
  Proof.
    intros W PK. pose proof PK as (EF & ET & P). split; auto. split; [now apply only_points_distinct|].
    intros x s t M. assert (NN : a_map a x <> None) by congruence. apply (wf_dom _ W) in NN.
    apply P in M. injection M as -> ->. lia.
  Qed.
  Lemma points_add k a : awf a -> points k a ->
    a_next a = k + 1 /\ points (k + 1) (a_update (a_create a) (a_next a) (a_next a) (a_next a)).
  Proof.
    intros W (EF & ET & P). destruct (dense_next a EF) as (EN & ET' & EF'). split; [lia|]. split; [exact EF'|].
    split; [change (a_top (a_create a) = k + 1); lia|].
    intros i p. unfold a_update; cbn. rewrite Spec.a_create_map by auto.
    destruct (N.eq_dec i (a_next a)) as [->|NX]; [rewrite upd_same; congruence|].
    rewrite !upd_other by auto. apply P.
  Qed.

  Lemma create_points_ok n : forall k st a, R st a -> points k a ->
    (exists st' a', R st' a' /\ points (k + N.of_nat n) a' /\ create_points I n st = Val (st', Ok tt)) \/
    (exists st' e, rt_fails cf (k + N.of_nat n) e /\ create_points I n st = Val (st', Err e)).
  Proof.
    induction n as [|n IH]; intros k st a K PK; cbn [create_points].
    - left. exists st, a. rewrite N.add_0_r. auto.
    - pose proof (lo_wf _ _ _ _ OK _ _ K) as W. pose proof (points_dense _ _ W PK) as DN.
      destruct (points_add k a W PK) as [EN PK']. pose proof PK as (EF & ET & _).
      destruct (d_create_point_ok cf sp I R OK st a K (CRE _ _ K DN)) as [(-> & F)|[(st' & -> & _)|(st' & -> & K' & _)]];
        [apply UPD; auto; lia| | |]; cbn [obind].
      + right. exists st, (LimitReached (c_iend cf)). split; [right|reflexivity]. split; auto. apply full_top in F; auto. lia.
      + right. exists st', AllocFailed. split; [now left|reflexivity].
      + destruct (IH _ _ _ K' PK') as [(st2 & a2 & K2 & P2 & ->)|(st2 & e & F & ->)].
        * left. exists st2, a2. sp. split; [|reflexivity]. now replace (k + N.of_nat (Datatypes.S n)) with (k + 1 + N.of_nat n) by lia.
        * right. exists st2, e. split; [|reflexivity]. destruct F as [->|[-> F]]; [now left|right; split; auto; lia].
  Qed.

  Lemma delete_each_ok xs : forall st a, R st a -> (forall i p, a_map a i = Some p -> p = (i, i)) -> NoDup xs ->
    (forall x, In x xs -> a_map a x <> None) ->
    exists st', R st' (a_deletes a xs) /\ delete_each I xs st = Val (st', Ok tt).
  Proof.
    induction xs as [|x xs IH]; intros st a K P ND EX; cbn [delete_each].
    - exists st. split; auto.
    - inversion ND as [|? ? NI ND']; subst.
      destruct (a_map a x) as [[s t]|] eqn:E; [|exfalso; apply (EX x); [now left|auto]].
      destruct (d_delete_with_ok cf sp I R OK st a x s t K E) as (st' & K' & _ & ->).
      { apply DD. now apply only_points_distinct. }
      cbn [obind]. apply IH; auto.
      + intros i p. rewrite a_delete_map. unfold upd. destruct (N.eqb i x); [discriminate|apply P].
      + intros y IN. rewrite a_delete_map. rewrite upd_other; [apply EX; now right|]. intros ->. contradiction.
  Qed.

  (** The links left, in the order of a visit. *)
  Definition points_left (n : nat) (f : N -> bool) : list link :=
    map (fun i => mkLink i i i) (filter (fun i => negb (f i)) (map N.of_nat (seq 1 n))).

  Lemma a_deletes_top xs : forall a, a_top (a_deletes a xs) <= a_top a.
  Proof.
    induction xs as [|x xs IH]; intros a; [cbn; lia|]. cbn [a_deletes fold_left].
    transitivity (a_top (a_delete a x)); [apply IH|apply a_delete_top].
  Qed.

  Lemma seq_range1 n : map N.of_nat (seq 1 n) = range1 (N.of_nat n).
  Proof. unfold range1. now rewrite Nat2N.id. Qed.

  Lemma alinks_left n f a : awf a -> points (N.of_nat n) a ->
    awf (a_deletes a (filter f (map N.of_nat (seq 1 n)))) ->
    alinks (a_deletes a (filter f (map N.of_nat (seq 1 n)))) = points_left n f.
  Proof.
    intros W PK W'. unfold points_left. rewrite seq_range1 in *. pose proof PK as (EF & ET & P).
    rewrite (alinks_ext_top _ (N.of_nat n) W') by (rewrite <- ET; apply a_deletes_top).
    assert (G : forall l, (forall i, In i l -> In i (range1 (N.of_nat n))) ->
      flat_map (fun i => match a_map (a_deletes a (filter f (range1 (N.of_nat n)))) i with
                         | Some (s, t) => [mkLink i s t] | None => [] end) l =
      map (fun i => mkLink i i i) (filter (fun i => negb (f i)) l)).
    { induction l as [|i l IH]; intros SUB; [reflexivity|]. cbn [flat_map filter].
      rewrite IH by (intros; apply SUB; now right). rewrite a_deletes_map.
      pose proof (SUB i (or_introl eq_refl)) as IN. apply in_range1 in IN as IB.
      destruct (in_dec N.eq_dec i (filter f (range1 (N.of_nat n)))) as [D|D].
      - apply filter_In in D as [_ ->]. reflexivity.
      - destruct (f i) eqn:FI; [exfalso; apply D; now apply filter_In|]. cbn [negb map].
        rewrite (points_at _ _ i W PK). destruct (N.leb_spec 1 i), (N.leb_spec i (N.of_nat n)); try lia. reflexivity. }
    apply G. auto.
  Qed.

  Lemma points_empty a : awf a -> (forall i, a_map a i = None) -> points 0 a.
  Proof. intros W N. destruct (awf_empty_top a W N) as [T F]. repeat split; auto; intros; congruence. Qed.

  Lemma bench_setup_ok n f st a : R st a -> (forall i, a_map a i = None) ->
    (exists st' a', R st' a' /\ alinks a' = points_left n f /\ bench_setup I n f st = Val (st', Ok tt)) \/
    (exists st' e, rt_fails cf (N.of_nat n) e /\ bench_setup I n f st = Val (st', Err e)).
  Proof.
    intros K N. unfold bench_setup.
    destruct (create_points_ok n 0 st a K (points_empty a (lo_wf _ _ _ _ OK _ _ K) N))
      as [(st1 & a1 & K1 & P1 & ->)|(st' & e & F & ->)]; cbn [obind].
    - pose proof (lo_wf _ _ _ _ OK _ _ K1) as W1. pose proof P1 as (EF & ET & P).
      destruct (delete_each_ok (filter f (map N.of_nat (seq 1 n))) st1 a1 K1 P) as (st2 & K2 & ->).
      + apply NoDup_filter. rewrite seq_range1. apply nodup_range1.
      + intros x IN. apply filter_In in IN as [IN _]. rewrite seq_range1 in IN. apply in_range1 in IN.
        rewrite (points_at _ _ x W1 P1). destruct (N.leb_spec 1 x), (N.leb_spec x (0 + N.of_nat n)); try lia. discriminate.
      + left. exists st2. eexists. split; [exact K2|]. split; [|reflexivity].
        apply alinks_left; auto. exact (lo_wf _ _ _ _ OK _ _ K2).
    - right. exists st', e. split; [exact F|reflexivity].
  Qed.

  Lemma all_visits st a q : R st a -> q = [] \/ q = [c_any cf; c_any cf; c_any cf] -> visits I st q (alinks a).
  Proof.
    intros K Q. destruct (visits_ex cf sp I R OK st a q K (QRY _ _ _ K Q)) as (L & V & VO).
    assert (L = alinks a) as <-; auto. destruct Q as [->| ->]; unfold visits_ok in VO; cbn in VO.
    - now apply VO.
    - rewrite !N.eqb_refl in VO. cbn in VO. now apply VO.
  Qed.

  Lemma bench_reads_ok st a : R st a ->
    d_iter cf I st = Val (alinks a) /\
    (forall H B (h : uread H B) x, exists r, d_each I h st x = Val r /\ visit_result h x (alinks a) r) /\
    bench_vec I st = Val (N.of_nat (length (alinks a)), alinks a).
  Proof.
    intros K. split; [apply d_each_iter_ok, (all_visits st a); auto|].
    pose proof (all_visits st a [] K (or_introl eq_refl)) as V. split.
    - intros H B h x. exists (urun h (alinks a) x). split; [now apply d_each_by_ok|apply urun_visit].
    - unfold bench_vec, d_count, d_count_by, d_each. rewrite (proj2 V). cbn [obind].
      rewrite (d_each_by_ok I _ _ _ _ _ _ _ V). cbn [obind]. rewrite (urun_map (fun k => k)), map_id. reflexivity.
  Qed.

  Lemma bench_create_ok m n : forall k st a, R st a -> points k a ->
    (exists st' a', R st' a' /\ points (k + N.of_nat (m * n)) a' /\ bench_create I m n st = Val (st', Ok tt)) \/
    (exists st' e, rt_fails cf (k + N.of_nat (m * n)) e /\ bench_create I m n st = Val (st', Err e)).
  Proof.
    induction m as [|m IH]; intros k st a K PK; cbn [bench_create].
    - left. exists st, a. cbn. rewrite N.add_0_r. auto.
    - destruct (create_points_ok n k st a K PK) as [(st1 & a1 & K1 & P1 & ->)|(st' & e & F & ->)]; cbn [obind].
      + destruct (IH _ _ _ K1 P1) as [(st2 & a2 & K2 & P2 & ->)|(st2 & e & F & ->)].
        * left. exists st2, a2. sp. split; [|reflexivity].
          now replace (k + N.of_nat (Datatypes.S m * n)) with (k + N.of_nat n + N.of_nat (m * n)) by lia.
        * right. exists st2, e. split; [|reflexivity]. destruct F as [->|[-> F]]; [now left|right; split; auto; lia].
      + right. exists st', e. split; [|reflexivity]. destruct F as [->|[-> F]]; [now left|right; split; auto; lia].
  Qed.
  Lemma points_links k st a : R st a -> points k a ->
    forall i s t, is_link I st i s t <-> (1 <= i <= k /\ s = i /\ t = i).
  Proof.
    intros K PK i s t. rewrite (ob_link cf _ I _ OK _ _ _ _ _ K), (points_at _ _ i (lo_wf _ _ _ _ OK _ _ K) PK).
    destruct (N.leb_spec 1 i), (N.leb_spec i k); cbn [andb]; split; intros E; try discriminate; try lia.
    - injection E as <- <-. auto.
    - destruct E as (_ & -> & ->). reflexivity.
  Qed.
End Generic.

(** * C100 *)
(** From any history that left the store empty, the setup ends with an unwrapped error of a
    creation that found no memory or no index left, or with the store that every measured closure
    sees as the points that were not deleted, by growing index. *)
Lemma L_C100_iter_unit cf tops lops st d n f :
  let U := unit_links cf tops lops in
  unit_env cf tops lops -> cfg_room cf -> u_hist cf tops lops st d -> (forall i, no_link U st i) ->
  exists st' r, bench_setup U n f st = Val (st', r) /\
    match r with
    | Ok _ =>
        let L := map (fun i => mkLink i i i) (filter (fun i => negb (f i)) (map N.of_nat (seq 1 n))) in
        (exists d', u_hist cf tops lops st' d') /\ d_iter cf U st' = Val L /\
        (forall H B (h : uread H B) x, exists r, d_each U h st' x = Val r /\ visit_result h x L r) /\
        bench_vec U st' = Val (N.of_nat (length L), L)
    | Err e => e = AllocFailed \/ (e = LimitReached (c_iend cf) /\ c_iend cf < N.of_nat n)
    end.
Proof.
  intros U ENV RM HH NO. uopen a K D. pose proof (uh_links_ok _ _ _ ENV) as OK.
  destruct (bench_setup_ok cf _ U _ OK (spd_distinct _ (e_spd cf))) with (n := n) (f := f) (st := st) (a := a)
    as [(st' & a' & K' & L' & E)|(st' & e & F & E)]; auto.
  - intros st0 a0 K0 _. now apply (i_spc _ _ _ ENV RM st0).
  - intros a0 s t W _ _. apply e_spu. left. rewrite Spec.a_create_map by auto. apply upd_same.
  - intros i. now apply (ob_none cf _ U _ OK _ _ _ K).
  - exists st', (Ok tt). split; auto. cbv zeta. pose proof K' as [_ HH']. split; auto.
    fold (points_left n f). rewrite <- L'. apply (bench_reads_ok cf _ U _ OK) ; auto.
    intros st0 a0 q K0 [->| ->]; apply (i_spq _ _ _ ENV st0); cbn; auto; try lia; discriminate.
  - exists st', (Err e). split; auto.
Qed.

Lemma L_C100_iter_split cf tops lops st d n f :
  let SL := split_links cf tops lops in
  unit_env cf tops lops -> c_iend cf + 1 + c_step cf <= c_tmax cf -> s_hist cf tops lops st d ->
  (forall i, no_link SL st i) ->
  exists st' r, bench_setup SL n f st = Val (st', r) /\
    match r with
    | Ok _ =>
        let L := map (fun i => mkLink i i i) (filter (fun i => negb (f i)) (map N.of_nat (seq 1 n))) in
        (exists d', s_hist cf tops lops st' d') /\ d_iter cf SL st' = Val L /\
        (forall H B (h : uread H B) x, exists r, d_each SL h st' x = Val r /\ visit_result h x L r) /\
        bench_vec SL st' = Val (N.of_nat (length L), L)
    | Err e => e = AllocFailed \/ (e = LimitReached (c_iend cf) /\ c_iend cf < N.of_nat n)
    end.
Proof.
  intros SL ENV RM HH NO. shopen a K D. pose proof (sh_links_ok _ _ _ ENV) as OK.
  destruct (bench_setup_ok cf _ SL _ OK (sh_del_distinct cf)) with (n := n) (f := f) (st := st) (a := a)
    as [(st' & a' & K' & L' & E)|(st' & e & F & E)]; auto.
  - intros st0 a0 K0 (EF & _ & B). pose proof (lo_wf _ _ _ _ OK _ _ K0) as W. cbn. split; [now apply room_room|].
    intros x s t M. destruct (B _ _ _ M). unfold a_next. rewrite EF. lia.
  - intros a0 s t W S0 T0. apply fresh_update; auto. congruence.
  - intros i. now apply (ob_none cf _ SL _ OK _ _ _ K).
  - exists st', (Ok tt). split; auto. cbv zeta. pose proof K' as [_ HH']. split; auto.
    fold (points_left n f). rewrite <- L'. apply (bench_reads_ok cf _ SL _ OK); auto.
    pose proof (ok_iend _ (f_cf _ _ _ ENV)) as AP.
    intros st0 a0 q K0 [->| ->]; cbn; [auto|].
    split; intros _; (split; [intros Z; rewrite Z in AP; lia|]).
    + intros Z. rewrite Z in AP. lia.
    + split; [intros Z; rewrite Z in AP; lia|]. intros Z. congruence.
  - exists st', (Err e). split; auto.
Qed.

(** Any number of rounds of the second program: the points 1 to rounds * n and nothing else. *)
Lemma L_C100_create_unit cf tops lops st d m n :
  let U := unit_links cf tops lops in
  unit_env cf tops lops -> cfg_room cf -> u_hist cf tops lops st d -> (forall i, no_link U st i) ->
  exists st' r, bench_create U m n st = Val (st', r) /\
    match r with
    | Ok _ => (exists d', u_hist cf tops lops st' d') /\
        forall i s t, is_link U st' i s t <-> (1 <= i <= N.of_nat (m * n) /\ s = i /\ t = i)
    | Err e => e = AllocFailed \/ (e = LimitReached (c_iend cf) /\ c_iend cf < N.of_nat (m * n))
    end.
Proof.
  intros U ENV RM HH NO. uopen a K D. pose proof (uh_links_ok _ _ _ ENV) as OK.
  destruct (bench_create_ok cf _ U _ OK) with (m := m) (n := n) (k := 0) (st := st) (a := a)
    as [(st' & a' & K' & P' & E)|(st' & e & F & E)]; auto.
  - intros st0 a0 K0 _. now apply (i_spc _ _ _ ENV RM st0).
  - intros a0 s t W _ _. apply e_spu. left. rewrite Spec.a_create_map by auto. apply upd_same.
  - apply points_empty; [exact (lo_wf _ _ _ _ OK _ _ K)|]. intros i. now apply (ob_none cf _ U _ OK _ _ _ K).
  - exists st', (Ok tt). split; auto. pose proof K' as [_ HH']. split; auto.
    exact (points_links cf _ U _ OK _ _ _ K' P').
  - exists st', (Err e). split; auto.
Qed.
Lemma L_C100_create_split cf tops lops st d m n :
  let SL := split_links cf tops lops in
  unit_env cf tops lops -> c_iend cf + 1 + c_step cf <= c_tmax cf -> s_hist cf tops lops st d ->
  (forall i, no_link SL st i) ->
  exists st' r, bench_create SL m n st = Val (st', r) /\
    match r with
    | Ok _ => (exists d', s_hist cf tops lops st' d') /\
        forall i s t, is_link SL st' i s t <-> (1 <= i <= N.of_nat (m * n) /\ s = i /\ t = i)
    | Err e => e = AllocFailed \/ (e = LimitReached (c_iend cf) /\ c_iend cf < N.of_nat (m * n))
    end.
Proof.
  intros SL ENV RM HH NO. shopen a K D. pose proof (sh_links_ok _ _ _ ENV) as OK.
  destruct (bench_create_ok cf _ SL _ OK) with (m := m) (n := n) (k := 0) (st := st) (a := a)
    as [(st' & a' & K' & P' & E)|(st' & e & F & E)]; auto.
  - intros st0 a0 K0 (EF & _ & B). pose proof (lo_wf _ _ _ _ OK _ _ K0) as W. cbn. split; [now apply room_room|].
    intros x s t M. destruct (B _ _ _ M). unfold a_next. rewrite EF. lia.
  - intros a0 s t W S0 T0. apply fresh_update; auto. congruence.
  - apply points_empty; [exact (lo_wf _ _ _ _ OK _ _ K)|]. intros i. now apply (ob_none cf _ SL _ OK _ _ _ K).
  - exists st', (Ok tt). split; auto. pose proof K' as [_ HH']. split; auto.
    exact (points_links cf _ SL _ OK _ _ _ K' P').
  - exists st', (Err e). split; auto.
Qed.

(** Eight links with every third deleted, and two rounds of three, on both stores; and a second
    round that runs out of indices. *)
Lemma L_C100_nonvacuous :
  let f x := x mod 3 =? 0 in
  let left := Val [mkLink 1 1 1; mkLink 2 2 2; mkLink 4 4 4; mkLink 5 5 5; mkLink 7 7 7; mkLink 8 8 8] in
  u_hist ex_cf ref_tree_ops ref_list_ops ex_start [] /\ (forall i, no_link ex_U ex_start i) /\
  s_hist ex_cf ref_tree_ops ref_list_ops ex_sstart [] /\ (forall i, no_link ex_S ex_sstart i) /\
  match bench_setup ex_U 8 f ex_start, bench_setup ex_S 8 f ex_sstart with
  | Val (st, Ok _), Val (st', Ok _) => d_iter ex_cf ex_U st = left /\ d_iter ex_cf ex_S st' = left
  | _, _ => False
  end /\
  left_links (bench_create ex_U 2 3 ex_start) (fun st => li_count ex_U st []) = Some (Val 6, Ok tt) /\
  left_links (bench_create ex_S 2 3 ex_sstart) (fun st => li_count ex_S st []) = Some (Val 6, Ok tt) /\
  left_links (bench_create ex_U 2 51 ex_start) (fun st => li_count ex_U st []) = Some (Val 100, Err (LimitReached 100)) /\
  left_links (bench_create ex_S 2 51 ex_sstart) (fun st => li_count ex_S st []) = Some (Val 100, Err (LimitReached 100)).
Proof.
  pose proof L_C58_nonvacuous as (HU & NU & HS & NS & _). cbv zeta.
  split; [exact HU|]. split; [exact NU|]. split; [exact HS|]. split; [exact NS|].
  vm_compute. repeat split.
Qed.
