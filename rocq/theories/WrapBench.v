(** The benchmark programs in the builds cargo bench makes, without overflow checks (C104; the
    statements are repeated in PropWrapBench.v). *)
From Coq Require Import NArith PeanoNat List Bool Lia Permutation.
From Verif Require Import Base Trees Lists Spec Iface UnitModel UnitInv UnitOps UnitLinks LinkModel SplitModel Forest
  SplitInv SplitReads SplitOps SplitWrites SplitLinks Doublets DoubletsOK Obs Hist Claims TreeImpl UnitHist SplitHist UnitClaims SplitClaims
  DefaultClaims SplitDefaults RandomTest MemUse Bench WrapModel WrapClaims.
Import ListNotations.
Open Scope N_scope.

Section Programs.
  Variables (cf : cfg) (S : Type) (I J : LinksI S).
  Hypothesis IJ : calls_below I J.
  Lemma p_create_points n : forall st, below (create_points I n st) (create_points J n st).
  Proof.
    induction n as [|n IH]; intros st; cbn [create_points]; [apply below_refl|]. apply below_bind; [apply (c_point S I J IJ)|].
    intros [st1 [i|e]]; [apply IH|apply below_refl].
  Qed.
  Lemma p_delete_each xs : forall st, below (delete_each I xs st) (delete_each J xs st).
  Proof.
    induction xs as [|i xs IH]; intros st; cbn [delete_each]; [apply below_refl|]. apply below_bind; [apply (c_d_delete S I J IJ)|].
    intros [st1 [u|e]]; [apply IH|apply below_refl].
  Qed.
  Lemma p_setup n f st : below (bench_setup I n f st) (bench_setup J n f st).
  Proof. unfold bench_setup. apply below_bind; [apply p_create_points|]. intros [st1 [u|e]]; [apply p_delete_each|apply below_refl]. Qed.
  Lemma p_each H B (h : uread H B) st x : below (d_each I h st x) (d_each J h st x).
  Proof. unfold d_each. apply (c_each_by S I J IJ). Qed.
  Lemma p_vec st : below (bench_vec I st) (bench_vec J st).
  Proof.
    unfold bench_vec. apply below_bind; [unfold d_count; apply (c_count S I J IJ)|]. intros n. apply below_bind; [apply p_each|].
    intros [v o]. apply below_refl.
  Qed.
  Lemma p_create m n : forall st, below (bench_create I m n st) (bench_create J m n st).
  Proof.
    induction m as [|m IH]; intros st; cbn [bench_create]; [apply below_refl|]. apply below_bind; [apply p_create_points|].
    intros [st1 [u|e]]; [apply IH|apply below_refl].
  Qed.
  Lemma p_iter st : below (d_iter cf I st) (d_iter cf J st).
  Proof. unfold d_iter. apply (c_each_iter S I J IJ). Qed.
End Programs.

(** The setup of the first program ends in an unwrapped error of a creation that found no memory
    or no index left, or with the store that every measured closure sees as the points that were
    not deleted, by growing index. *)
Lemma L_C104_iter_unit cf tops lops st d n f : let W := wunit_links cf tops lops in
  unit_env cf tops lops -> cfg_room cf -> wu_hist cf tops lops st d -> (forall i, no_link W st i) ->
  exists st' r, bench_setup W n f st = Val (st', r) /\
    match r with
    | Ok _ =>
        let L := map (fun i => mkLink i i i) (filter (fun i => negb (f i)) (map N.of_nat (seq 1 n))) in
        (exists d', wu_hist cf tops lops st' d') /\ d_iter cf W st' = Val L /\
        (forall H B (h : uread H B) x, exists r, d_each W h st' x = Val r /\ visit_result h x L r) /\
        bench_vec W st' = Val (N.of_nat (length L), L)
    | Err e => e = AllocFailed \/ (e = LimitReached (c_iend cf) /\ c_iend cf < N.of_nat n)
    end.
Proof.
  intros W ENV RM HH NL. pose proof (below_unit cf tops lops) as BU. apply (wu_to cf tops lops ENV) in HH.
  destruct (L_C100_iter_unit cf tops lops st d n f ENV RM HH NL) as (st' & r & E & P). exists st', r.
  split; [exact (p_setup _ _ _ BU _ _ _ _ E)|]. destruct r as [u|e]; [|exact P]. cbv zeta in P |- *. destruct P as ((d' & H') & P1 & P2 & P3).
  split; [exists d'; exact (u_to cf tops lops _ _ H')|]. split; [exact (p_iter cf _ _ _ BU _ _ P1)|]. split; [|exact (p_vec _ _ _ BU _ _ P3)].
  intros H B h x. destruct (P2 H B h x) as (r & E1 & V). exists r. split; [exact (p_each _ _ _ BU _ _ _ _ _ _ E1)|exact V].
Qed.
Lemma L_C104_iter_split cf tops lops st d n f : let W := wsplit_links cf tops lops in
  unit_env cf tops lops -> c_iend cf + 1 + c_step cf <= c_tmax cf -> ws_hist cf tops lops st d -> (forall i, no_link W st i) ->
  exists st' r, bench_setup W n f st = Val (st', r) /\
    match r with
    | Ok _ =>
        let L := map (fun i => mkLink i i i) (filter (fun i => negb (f i)) (map N.of_nat (seq 1 n))) in
        (exists d', ws_hist cf tops lops st' d') /\ d_iter cf W st' = Val L /\
        (forall H B (h : uread H B) x, exists r, d_each W h st' x = Val r /\ visit_result h x L r) /\
        bench_vec W st' = Val (N.of_nat (length L), L)
    | Err e => e = AllocFailed \/ (e = LimitReached (c_iend cf) /\ c_iend cf < N.of_nat n)
    end.
Proof.
  intros W ENV RM HH NL. pose proof (below_split cf tops lops) as BU. apply (ws_to cf tops lops ENV) in HH.
  destruct (L_C100_iter_split cf tops lops st d n f ENV RM HH NL) as (st' & r & E & P). exists st', r.
  split; [exact (p_setup _ _ _ BU _ _ _ _ E)|]. destruct r as [u|e]; [|exact P]. cbv zeta in P |- *. destruct P as ((d' & H') & P1 & P2 & P3).
  split; [exists d'; exact (s_to cf tops lops _ _ H')|]. split; [exact (p_iter cf _ _ _ BU _ _ P1)|]. split; [|exact (p_vec _ _ _ BU _ _ P3)].
  intros H B h x. destruct (P2 H B h x) as (r & E1 & V). exists r. split; [exact (p_each _ _ _ BU _ _ _ _ _ _ E1)|exact V].
Qed.
(** Any number of rounds of the second program: the points 1 to rounds * n and nothing else. *)
Lemma L_C104_create_unit cf tops lops st d m n : let W := wunit_links cf tops lops in
  unit_env cf tops lops -> cfg_room cf -> wu_hist cf tops lops st d -> (forall i, no_link W st i) ->
  exists st' r, bench_create W m n st = Val (st', r) /\
    match r with
    | Ok _ => (exists d', wu_hist cf tops lops st' d') /\
        forall i s t, is_link W st' i s t <-> (1 <= i <= N.of_nat (m * n) /\ s = i /\ t = i)
    | Err e => e = AllocFailed \/ (e = LimitReached (c_iend cf) /\ c_iend cf < N.of_nat (m * n))
    end.
Proof.
  intros W ENV RM HH NL. pose proof (below_unit cf tops lops) as BU. apply (wu_to cf tops lops ENV) in HH.
  destruct (L_C100_create_unit cf tops lops st d m n ENV RM HH NL) as (st' & r & E & P). exists st', r.
  split; [exact (p_create _ _ _ BU _ _ _ _ E)|]. destruct r as [u|e]; [|exact P]. destruct P as ((d' & H') & P1).
  split; [exists d'; exact (u_to cf tops lops _ _ H')|exact P1].
Qed.
Lemma L_C104_create_split cf tops lops st d m n : let W := wsplit_links cf tops lops in
  unit_env cf tops lops -> c_iend cf + 1 + c_step cf <= c_tmax cf -> ws_hist cf tops lops st d -> (forall i, no_link W st i) ->
  exists st' r, bench_create W m n st = Val (st', r) /\
    match r with
    | Ok _ => (exists d', ws_hist cf tops lops st' d') /\
        forall i s t, is_link W st' i s t <-> (1 <= i <= N.of_nat (m * n) /\ s = i /\ t = i)
    | Err e => e = AllocFailed \/ (e = LimitReached (c_iend cf) /\ c_iend cf < N.of_nat (m * n))
    end.
Proof.
  intros W ENV RM HH NL. pose proof (below_split cf tops lops) as BU. apply (ws_to cf tops lops ENV) in HH.
  destruct (L_C100_create_split cf tops lops st d m n ENV RM HH NL) as (st' & r & E & P). exists st', r.
  split; [exact (p_create _ _ _ BU _ _ _ _ E)|]. destruct r as [u|e]; [|exact P]. destruct P as ((d' & H') & P1).
  split; [exists d'; exact (s_to cf tops lops _ _ H')|exact P1].
Qed.

Section Random.
  Variables (cf : cfg) (S : Type) (I J : LinksI S).
  Hypothesis IJ : calls_below I J.
  Lemma p_count st : below (d_count I st) (d_count J st).
  Proof. unfold d_count. apply (c_count S I J IJ). Qed.
  Lemma p_step f st c : below (rt_step cf I f st c) (rt_step cf J f st c).
  Proof.
    unfold rt_step. apply below_bind; [apply p_count|]. intros n. apply below_bind.
    - destruct (f n) as [[s t]|]; (apply below_bind; [|intros [? ?]; apply below_refl]);
        [apply (c_get_or_create cf S I J IJ)|apply (c_d_create S I J IJ)].
    - intros [st1 [k|e]]; [|apply below_refl]. apply below_bind; [apply p_count|]. intros m. apply below_refl.
  Qed.
  Lemma p_steps fs : forall st c, below (rt_steps cf I fs st c) (rt_steps cf J fs st c).
  Proof.
    induction fs as [|f fs IH]; intros st c; cbn [rt_steps]; [apply below_refl|]. apply below_bind; [apply p_step|].
    intros [st1 [k|e]]; [apply IH|apply below_refl].
  Qed.
  Lemma p_cycle fs st : below (rt_cycle cf I fs st) (rt_cycle cf J fs st).
  Proof.
    unfold rt_cycle. apply below_bind; [apply p_steps|]. intros [st1 [k|e]]; [|apply below_refl].
    apply below_bind; [apply (c_delete_all S I J IJ)|]. intros [st2 [u|e]]; [|apply below_refl].
    apply below_bind; [apply p_count|]. intros m. apply below_refl.
  Qed.
  Lemma p_run l : forall st, below (rt_run cf I l st) (rt_run cf J l st).
  Proof.
    induction l as [|fs l IH]; intros st; cbn [rt_run]; [apply below_refl|]. apply below_bind; [apply p_cycle|].
    intros [st1 [u|e]]; [apply IH|apply below_refl].
  Qed.
End Random.

(** The randomized test ends with an empty store or with a creation that found no memory or no
    index left; it never fails an assertion. *)
Lemma L_C104_random_unit cf tops lops st d l : let W := wunit_links cf tops lops in
  unit_env cf tops lops -> cfg_room cf -> wu_hist cf tops lops st d -> (forall i, no_link W st i) -> Forall (Forall drawn) l ->
  exists st' r, rt_run cf W l st = Val (st', r) /\
    match r with
    | Ok _ => (exists d', wu_hist cf tops lops st' d') /\ forall i, no_link W st' i
    | Err e => exists fs, In fs l /\
        (e = AllocFailed \/ (e = LimitReached (c_iend cf) /\ c_iend cf < N.of_nat (length fs)))
    end.
Proof.
  intros W ENV RM HH NL DR. pose proof (below_unit cf tops lops) as BU. apply (wu_to cf tops lops ENV) in HH.
  destruct (L_C58_random_unit cf tops lops st d l ENV RM HH NL DR) as (st' & r & E & P). exists st', r.
  split; [exact (p_run cf _ _ _ BU _ _ _ E)|]. destruct r as [u|e]; [|exact P]. destruct P as ((d' & H') & P1).
  split; [exists d'; exact (u_to cf tops lops _ _ H')|exact P1].
Qed.
Lemma L_C104_random_split cf tops lops st d l : let W := wsplit_links cf tops lops in
  unit_env cf tops lops -> c_iend cf + 1 + c_step cf <= c_tmax cf -> ws_hist cf tops lops st d -> (forall i, no_link W st i) ->
  Forall (Forall drawn) l ->
  exists st' r, rt_run cf W l st = Val (st', r) /\
    match r with
    | Ok _ => (exists d', ws_hist cf tops lops st' d') /\ forall i, no_link W st' i
    | Err e => exists fs, In fs l /\
        (e = AllocFailed \/ (e = LimitReached (c_iend cf) /\ c_iend cf < N.of_nat (length fs)))
    end.
Proof.
  intros W ENV RM HH NL DR. pose proof (below_split cf tops lops) as BU. apply (ws_to cf tops lops ENV) in HH.
  destruct (L_C58_random_split cf tops lops st d l ENV RM HH NL DR) as (st' & r & E & P). exists st', r.
  split; [exact (p_run cf _ _ _ BU _ _ _ E)|]. destruct r as [u|e]; [|exact P]. destruct P as ((d' & H') & P1).
  split; [exists d'; exact (s_to cf tops lops _ _ H')|exact P1].
Qed.

(** Eight links with every third deleted, two rounds that run out of indices, and the example
    draws of C58, on both stores. *)
Lemma L_C104_nonvacuous : let W := wunit_links ex_cf ref_tree_ops ref_list_ops in let V := wsplit_links ex_cf ref_tree_ops ref_list_ops in
  let f x := x mod 3 =? 0 in
  let left := Val [mkLink 1 1 1; mkLink 2 2 2; mkLink 4 4 4; mkLink 5 5 5; mkLink 7 7 7; mkLink 8 8 8] in
  cfg_room ex_cf /\
  wu_hist ex_cf ref_tree_ops ref_list_ops ex_start [] /\ (forall i, no_link W ex_start i) /\
  ws_hist ex_cf ref_tree_ops ref_list_ops ex_sstart [] /\ (forall i, no_link V ex_sstart i) /\ Forall (Forall drawn) ex_draws /\
  match bench_setup W 8 f ex_start, bench_setup V 8 f ex_sstart with
  | Val (st, Ok _), Val (st', Ok _) => d_iter ex_cf W st = left /\ d_iter ex_cf V st' = left
  | _, _ => False
  end /\
  left_links (bench_create W 2 51 ex_start) (fun st => li_count W st []) = Some (Val 100, Err (LimitReached 100)) /\
  left_links (bench_create V 2 51 ex_sstart) (fun st => li_count V st []) = Some (Val 100, Err (LimitReached 100)) /\
  left_links (rt_run ex_cf W ex_draws ex_start) (fun st => li_count W st []) = Some (Val 0, Ok tt) /\
  left_links (rt_run ex_cf V ex_draws ex_sstart) (fun st => li_count V st []) = Some (Val 0, Ok tt).
Proof.
  pose proof L_C58_nonvacuous as (HU & NU & HS & NS & DR & _). cbv zeta. split; [exact ex_cf_room|].
  split; [exact (u_to _ _ _ _ _ HU)|]. split; [exact NU|]. split; [exact (s_to _ _ _ _ _ HS)|]. split; [exact NS|]. split; [exact DR|].
  vm_compute. repeat split.
Qed.
