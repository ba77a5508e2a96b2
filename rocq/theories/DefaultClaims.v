(** Properties of the default methods of the Doublets trait on histories of the
    single-memory store, and of the limits of that store (proofs; the statements are
    repeated in PropDefaults.v). *)
From Coq Require Import NArith List Bool Lia Permutation Sorted.
From Verif Require Import Base Trees Lists Spec Iface UnitModel UnitInv UnitOps UnitLinks
  Doublets Obs DoubletsOK Hist Claims TreeImpl UnitHist UnitClaims.
Import ListNotations.
Open Scope N_scope.

(** Every visited link exists. *)
Lemma avisits_in any q a l : In l (avisits any q a) -> In l (alinks a).
Proof.
  unfold avisits. destruct q as [|i [|s [|t [|]]]]; cbn zeta; auto; try tauto;
    repeat match goal with
    | |- In _ (if ?b then _ else _) -> _ => destruct b
    end; rewrite ?in_app_iff, ?filter_In; cbn [In]; tauto.
Qed.
Lemma visits_ok_in any q a L l : visits_ok any q a L -> In l L -> In l (alinks a).
Proof.
  unfold visits_ok. destruct (is_search any q).
  - intros [[-> _]|(k & -> & IN)]; [intros []|]. intros [->|[]]. eapply avisits_in; eauto.
  - intros (P & _) IN. apply (Permutation_in _ P) in IN. eapply avisits_in; eauto.
Qed.

(** * C16 *)
Lemma L_C16_delete_all_partial cf tops lops st d n :
  let U := unit_links cf tops lops in
  unit_env cf tops lops -> u_hist cf tops lops st d -> distinct_pairs U st ->
  (forall k, ~ hole U st k) -> u_count cf st [] = Val n ->
  exists st', (exists d', u_hist cf tops lops st' d') /\ (forall i, no_link U st' i) /\
    forall fuel, (N.to_nat n < fuel)%nat -> d_delete_all U fuel st = Val (st', Ok tt).
Proof.
  intros U ENV HH DP NH CN. uopen a K D. pose proof (uh_links_ok _ _ _ ENV) as OK.
  assert (FE : a_free a = []).
  { destruct (a_free a) as [|k l] eqn:E; auto. exfalso. apply (NH k).
    apply (ob_hole cf _ U _ OK _ _ _ K). rewrite E. now left. }
  pose proof (count_R cf _ U _ OK (i_spq _ _ _ ENV) _ _ K) as C.
  assert (TN : a_top a = N.of_nat (N.to_nat n)).
  { rewrite N2Nat.id. pose proof (len_alinks_split a (lo_wf _ _ _ _ OK _ _ K)) as LS. rewrite FE in LS. cbn in LS.
    change (u_count cf st [] = Val (N.of_nat (length (alinks a)))) in C. rewrite C in CN. injection CN as <-. lia. }
  destruct (g_delete_all_dense cf _ U _ OK (e_spd cf) (i_spq _ _ _ ENV) (N.to_nat n) st a K) as (st' & a' & K' & E & G); auto.
  { now apply (ob_distinct cf _ U _ OK _ _ K). }
  exists st'. split; [apply K'|]. split; auto. intros i. now apply (ob_none cf _ U _ OK _ _ _ K').
Qed.
Lemma L_C16_partial_nonvacuous : exists st d, u_hist ex_cf ref_tree_ops ref_list_ops st d /\
  distinct_pairs ex_U st /\ (forall k, ~ hole ex_U st k) /\ u_count ex_cf st [] = Val 3.
Proof.
  destruct (ex_reach ex3) as (d & HH & K); [vm_compute; reflexivity..|].
  destruct ex3_reach as (_ & _ & DP & _). exists (ex_st ex3), d. sp. sp. split; [|vm_compute; reflexivity].
  intros k. rewrite (ob_hole ex_cf _ ex_U _ (e_ok _ _ _ ex_env) _ _ _ K). vm_compute. auto.
Qed.

(** With a hole, delete_all always fails. *)
Lemma L_C16_delete_all_holes cf tops lops st d n k :
  let U := unit_links cf tops lops in
  unit_env cf tops lops -> u_hist cf tops lops st d -> distinct_pairs U st ->
  hole U st k -> u_count cf st [] = Val n ->
  exists st' j, no_link U st j /\
    forall fuel, (N.to_nat n < fuel)%nat -> d_delete_all U fuel st = Val (st', Err (NotExists j)).
Proof.
  intros U ENV HH DP HO CN. uopen a K D. pose proof (uh_links_ok _ _ _ ENV) as OK.
  pose proof (count_R cf _ U _ OK (i_spq _ _ _ ENV) _ _ K) as C.
  change (u_count cf st [] = Val (N.of_nat (length (alinks a)))) in C. rewrite C in CN. injection CN as <-.
  destruct (g_delete_all_holes cf _ U _ OK (e_spd cf) (i_spq _ _ _ ENV) (length (alinks a)) st a K)
    as (st' & a' & j & K' & _ & _ & _ & M & _ & _ & G); auto.
  { now apply (ob_distinct cf _ U _ OK _ _ K). }
  { intros E. apply (ob_hole cf _ U _ OK _ _ _ K) in HO. rewrite E in HO. exact HO. }
  exists st', j. split; [now apply (ob_none cf _ U _ OK _ _ _ K)|].
  intros f LT. apply G. lia.
Qed.
Lemma L_C16_delete_all_refuted : exists st d st', u_hist ex_cf ref_tree_ops ref_list_ops st d /\
  distinct_pairs ex_U st /\ d_delete_all ex_U 100 st = Val (st', Err (NotExists 1)) /\ is_link ex_U st' 3 2 1.
Proof.
  destruct ex3h_reach as (d & HH & DP & _). exists (ex_st ex3h), d.
  exists (match d_delete_all ex_U 100 (ex_st ex3h) with Val (s, _) => s | _ => ex_start end).
  sp. sp. split; vm_compute; reflexivity.
Qed.

(** * C17 *)
Lemma L_C17_delete_usages_partial cf tops lops st d i :
  let U := unit_links cf tops lops in
  unit_env cf tops lops -> u_hist cf tops lops st d -> (forall l, user U st i l -> separable U st (l_index l)) ->
  i <> 0 -> i <> c_any cf -> (forall x, x <> i -> ~ is_link U st x i i) ->
  exists st' L, (exists d', u_hist cf tops lops st' d') /\ NoDup L /\
    (forall l, In l L <-> user U st i l) /\ removed U st st' L /\
    (forall H B (h : uwrite H B) x, d_delete_usages_with cf U h i st x = Val (st', told h L x, Ok tt)) /\
    d_delete_usages cf U i st = Val (st', Ok tt).
Proof.
  intros U ENV HH DP N0 NA NB. uopen a K D. pose proof (uh_links_ok _ _ _ ENV) as OK.
  destruct (g_delete_usages cf (e_cf _ _ _ ENV) _ U _ OK (e_spd cf) (i_spq _ _ _ ENV) st a i K N0 NA DP NB)
    as (st' & a' & L & K' & R).
  exists st', L. split; [apply K'|exact R].
Qed.
(** links 1: 1->1, 2: 2->2, 3: 1->2, 4: 2->1, 5: 3->1 *)
Definition ex5 : list cmd := [Cr; Cr; Cr; Cr; Cr; Up 1 1 1; Up 2 2 2; Up 3 1 2; Up 4 2 1; Up 5 3 1].
Lemma ex5_reach : exists d, u_hist ex_cf ref_tree_ops ref_list_ops (ex_st ex5) d /\ distinct_pairs ex_U (ex_st ex5) /\
  uinv ex_cf (ex_st ex5) (arun a_empty ex5).
Proof.
  destruct (ex_reach ex5) as (d & HH & K); [vm_compute; reflexivity..|]. exists d. split; [exact HH|]. split; [|exact K].
  apply ex_distinct; vm_compute; reflexivity.
Qed.
(** Case analysis over the indices of a concrete store. *)
Ltac each_index LT :=
  match type of LT with
  | 1 <= ?i <= ?n => 
      let n' := eval vm_compute in n in
      let I := fresh in
      assert (I : In i (range1 n')) by (apply in_range1; exact LT);
      vm_compute in I; repeat destruct I as [<-|I]; try destruct I
  end.
Lemma L_C17_partial_nonvacuous : exists st d, u_hist ex_cf ref_tree_ops ref_list_ops st d /\
  (forall l, user ex_U st 1 l -> separable ex_U st (l_index l)) /\ (forall x, x <> 1 -> ~ is_link ex_U st x 1 1) /\
  user ex_U st 1 (mkLink 3 1 2) /\ user ex_U st 1 (mkLink 5 3 1).
Proof.
  destruct ex5_reach as (d & HH & DP & K). exists (ex_st ex5), d. sp. split; [intros; now apply distinct_separable|].
  split; [|split; (split; [vm_compute; reflexivity|]); cbn; intuition discriminate].
  intros x NX L. assert (LK : linked ex_U (ex_st ex5) x) by (eexists; eauto).
  apply (ob_top ex_cf _ ex_U _ (e_ok _ _ _ ex_env) _ _ K) in LK.
  each_index LK; try contradiction; vm_compute in L; discriminate.
Qed.
(** A link with [i] at both ends is deleted twice, so the call fails. *)
Lemma L_C17_delete_usages_double cf tops lops st d i x :
  let U := unit_links cf tops lops in
  unit_env cf tops lops -> u_hist cf tops lops st d -> (forall l, user U st i l -> separable U st (l_index l)) ->
  i <> 0 -> i <> c_any cf -> x <> i -> is_link U st x i i ->
  exists st', d_delete_usages cf U i st = Val (st', Err (NotExists x)).
Proof.
  intros U ENV HH DP N0 NA NX L. uopen a K D. pose proof (uh_links_ok _ _ _ ENV) as OK.
  destruct (g_delete_usages_double cf (e_cf _ _ _ ENV) _ U _ OK (e_spd cf) (i_spq _ _ _ ENV) st a i x K N0 NA DP NX L)
    as (st' & a' & K' & R). eauto.
Qed.
Lemma L_C17_delete_usages_refuted : exists st d st', u_hist ex_cf ref_tree_ops ref_list_ops st d /\
  is_link ex_U st 2 1 1 /\ is_link ex_U st 3 1 2 /\
  d_delete_usages ex_cf ex_U 1 st = Val (st', Err (NotExists 2)) /\ is_link ex_U st' 3 1 2.
Proof.
  set (l := [Cr; Cr; Cr; Up 3 1 2; Up 2 1 1]).
  destruct (ex_reach l) as (d & HH & K); [vm_compute; reflexivity..|].
  exists (ex_st l), d. exists (match d_delete_usages ex_cf ex_U 1 (ex_st l) with Val (s, _) => s | _ => ex_start end).
  sp. conj; vm_compute; reflexivity.
Qed.

(** * C18 *)
Lemma L_C18_rebase_partial cf tops lops st d old new :
  let U := unit_links cf tops lops in
  unit_env cf tops lops -> u_hist cf tops lops st d -> distinct_pairs U st ->
  old <> new -> linked U st old -> (forall x, x <> old -> ~ is_link U st x old old) ->
  (forall i j s t, moved U st old new i s t -> moved U st old new j s t -> (s, t) <> (0, 0) -> i = j) ->
  exists st', (exists d', u_hist cf tops lops st' d') /\ d_rebase cf U old new st = Val (st', Ok new) /\
    (forall i s t, is_link U st' i s t <-> moved U st old new i s t) /\
    (forall i s t, is_link U st' i s t -> i <> old -> s <> old /\ t <> old).
Proof.
  intros U ENV HH DP NE LK NB MI. uopen a K D. pose proof (uh_links_ok _ _ _ ENV) as OK.
  destruct (g_rebase cf (e_cf _ _ _ ENV) _ U _ OK (e_spu cf) (i_spq _ _ _ ENV) st a old new K NE LK DP NB MI)
    as (st' & a' & K' & R).
  exists st'. split; [apply K'|exact R].
Qed.
(** links 1: 1->1, 2: 2->2, 3: 1->2, 4: 3->1, 5: 0->0; rebase 1 to 5 *)
Definition ex5r : list cmd := [Cr; Cr; Cr; Cr; Cr; Up 1 1 1; Up 2 2 2; Up 3 1 2; Up 4 3 1].
Lemma ex5r_top x s t : is_link ex_U (ex_st ex5r) x s t -> 1 <= x <= 5.
Proof.
  destruct (ex_reach ex5r) as (d & HH & K); [vm_compute; reflexivity..|].
  intros L. assert (LK : linked ex_U (ex_st ex5r) x) by (eexists; eauto).
  apply (ob_top ex_cf _ ex_U _ (e_ok _ _ _ ex_env) _ _ K) in LK. vm_compute (a_top _) in LK. exact LK.
Qed.
Lemma ex5r_ends : forall x, x <> 1 -> ~ is_link ex_U (ex_st ex5r) x 1 1.
Proof.
  intros x NX L. pose proof (ex5r_top _ _ _ L) as T. each_index T; try contradiction; vm_compute in L; discriminate.
Qed.
Lemma ex5r_moved : forall i j s t, moved ex_U (ex_st ex5r) 1 5 i s t -> moved ex_U (ex_st ex5r) 1 5 j s t ->
  (s, t) <> (0, 0) -> i = j.
Proof.
  intros i j s t (s1 & t1 & L1 & E1) (s2 & t2 & L2 & E2) NZ.
  pose proof (ex5r_top _ _ _ L1) as T1. pose proof (ex5r_top _ _ _ L2) as T2.
  each_index T1; each_index T2; try reflexivity; exfalso;
    vm_compute in L1, L2; injection L1 as <- <-; injection L2 as <- <-; vm_compute in E1, E2;
    destruct E1 as [-> ->], E2 as [E2 E3]; try discriminate; apply NZ; reflexivity.
Qed.
Lemma L_C18_partial_nonvacuous : exists st d st', u_hist ex_cf ref_tree_ops ref_list_ops st d /\
  distinct_pairs ex_U st /\ linked ex_U st 1 /\ (forall x, x <> 1 -> ~ is_link ex_U st x 1 1) /\
  (forall i j s t, moved ex_U st 1 5 i s t -> moved ex_U st 1 5 j s t -> (s, t) <> (0, 0) -> i = j) /\
  d_rebase ex_cf ex_U 1 5 st = Val (st', Ok 5) /\ is_link ex_U st' 3 5 2 /\ is_link ex_U st' 4 3 5.
Proof.
  destruct (ex_reach ex5r) as (d & HH & K); [vm_compute; reflexivity..|]. exists (ex_st ex5r), d.
  exists (match d_rebase ex_cf ex_U 1 5 (ex_st ex5r) with Val (s, _) => s | _ => ex_start end).
  sp. split; [apply ex_distinct; vm_compute; reflexivity|].
  split; [exists 1, 1; vm_compute; reflexivity|].
  split; [exact ex5r_ends|]. split; [exact ex5r_moved|]. conj; vm_compute; reflexivity.
Qed.
(** A usage with [old] at both ends keeps [old] as its source. *)
Lemma L_C18_rebase_refuted : exists st d st', u_hist ex_cf ref_tree_ops ref_list_ops st d /\
  distinct_pairs ex_U st /\ is_link ex_U st 2 1 1 /\
  d_rebase ex_cf ex_U 1 3 st = Val (st', Ok 3) /\ is_link ex_U st' 2 1 3.
Proof.
  set (l := [Cr; Cr; Cr; Up 2 1 1]).
  destruct (ex_reach l) as (d & HH & K); [vm_compute; reflexivity..|].
  exists (ex_st l), d. exists (match d_rebase ex_cf ex_U 1 3 (ex_st l) with Val (s, _) => s | _ => ex_start end).
  sp. split; [apply ex_distinct; vm_compute; reflexivity|]. conj; vm_compute; reflexivity.
Qed.

(** * C19: the handler always breaks, and is called again. *)
Definition stubborn : uwrite (list link) unit := fun l b _ => (l ++ [b], Some tt).
(** A fuse never burns: whatever the handler answered before, a fuse passes on every call,
    and every answer.  Calling it by value does the same. *)
Definition call_all {H B} (h : uwrite H B) (l : list (link * link)) (x : H) : H := fold_left (fun x c => fst (h x (fst c) (snd c))) l x.
Lemma L_C19_fuse_passes_on H B (h : uwrite H B) l x :
  call_all (fuse_call h) l (x, false) = (call_all h l x, false) /\
  forall b a, let y := call_all h l x in
    fst (fuse_call h (y, false) b a) = (fst (h y b a), false) /\
    flow_of (snd (fuse_call h (y, false) b a)) = flow_of (snd (h y b a)) /\
    fuse_once h y b a = (fst (h y b a), flow_of (snd (h y b a))).
Proof.
  assert (F : forall y b a, fst (fuse_call h (y, false) b a) = (fst (h y b a), false)).
  { intros y b a. unfold fuse_call. destruct (h y b a) as [y' [r|]]; reflexivity. }
  split.
  - unfold call_all. revert x. induction l as [|[b a] l IH]; intros x; cbn [fold_left fst snd]; [reflexivity|]. rewrite F. apply IH.
  - intros b a y. split; [apply F|]. unfold fuse_call, fuse_once. destruct (h y b a) as [y' [r|]]; split; reflexivity.
Qed.
Lemma L_C19_fuse_refuted : exists st d, u_hist ex_cf ref_tree_ops ref_list_ops st d /\
  distinct_pairs ex_U st /\
  (exists st', d_delete_query_with ex_U stubborn [200; 200; 1] st [] =
     Val (st', [mkLink 3 2 1; mkLink 1 1 1], Ok tt)) /\
  (exists st', d_delete_usages_with ex_cf ex_U stubborn 1 st [] =
     Val (st', [mkLink 3 2 1; mkLink 2 1 2], Ok tt)) /\
  (exists st', d_rebase_with ex_cf ex_U stubborn 1 4 st [] =
     Val (st', [mkLink 2 4 2; mkLink 3 2 4], Ok tt)) /\
  (exists st', d_create_link_with ex_U stubborn 2 2 st [] =
     Val (st', [nothing; mkLink 4 2 2], Ok Break)).
Proof.
  destruct ex3_reach as (d & HH & DP & _). exists (ex_st ex3), d. sp. sp.
  conj.
  - exists (match d_delete_query_with ex_U stubborn [200; 200; 1] (ex_st ex3) [] with Val (s, _, _) => s | _ => ex_start end).
    vm_compute; reflexivity.
  - exists (match d_delete_usages_with ex_cf ex_U stubborn 1 (ex_st ex3) [] with Val (s, _, _) => s | _ => ex_start end).
    vm_compute; reflexivity.
  - exists (match d_rebase_with ex_cf ex_U stubborn 1 4 (ex_st ex3) [] with Val (s, _, _) => s | _ => ex_start end).
    vm_compute; reflexivity.
  - exists (match d_create_link_with ex_U stubborn 2 2 (ex_st ex3) [] with Val (s, _, _) => s | _ => ex_start end).
    vm_compute; reflexivity.
Qed.

(** * C20 *)
Lemma L_C20_usages cf tops lops st d i :
  let U := unit_links cf tops lops in
  unit_env cf tops lops -> u_hist cf tops lops st d -> 2 * c_iend cf <= c_tmax cf -> linked U st i ->
  exists L1 L2, d_usages cf U st i = Val (Ok (map l_index (L1 ++ L2))) /\
    d_count_usages cf U st i = Val (Ok (N.of_nat (length (L1 ++ L2)))) /\
    d_has_usages cf U st i = Val (match L1 ++ L2 with [] => false | _ => true end) /\
    NoDup L1 /\ NoDup L2 /\
    (forall l, In l L1 <-> li_get U st (l_index l) = Val (Some l) /\ l_index l <> i /\ l_source l = i) /\
    (forall l, In l L2 <-> li_get U st (l_index l) = Val (Some l) /\ l_index l <> i /\ l_target l = i).
Proof.
  intros U ENV HH DB LI. uopen a K D.
  exact (g_usages cf (e_cf _ _ _ ENV) _ U _ (uh_links_ok _ _ _ ENV) (i_spq _ _ _ ENV) st a i K DB LI).
Qed.
Lemma L_C20_usages_missing cf tops lops st d i :
  let U := unit_links cf tops lops in
  unit_env cf tops lops -> u_hist cf tops lops st d -> no_link U st i ->
  d_usages cf U st i = Val (Err (NotExists i)) /\ d_count_usages cf U st i = Val (Err (NotExists i)) /\
  d_has_usages cf U st i = Val false.
Proof.
  intros U ENV HH NL. uopen a K D. exact (g_usages_none cf _ U _ (uh_links_ok _ _ _ ENV) st a i K NL).
Qed.
Lemma L_C20_nonvacuous : exists st d, u_hist ex_cf ref_tree_ops ref_list_ops st d /\
  linked ex_U st 1 /\ no_link ex_U st 9 /\ d_usages ex_cf ex_U st 1 = Val (Ok [3; 4; 5]).
Proof.
  destruct ex5_reach as (d & HH & _). exists (ex_st ex5), d. sp.
  split; [exists 1, 1; vm_compute; reflexivity|]. split; vm_compute; reflexivity.
Qed.

(** * C21 *)
Lemma L_C21_get_or_create cf tops lops st d s t :
  let U := unit_links cf tops lops in
  unit_env cf tops lops -> cfg_room cf -> u_hist cf tops lops st d ->
  s <> 0 -> s <> c_any cf -> t <> c_any cf ->
  (exists i, is_link U st i s t /\ d_get_or_create cf U s t st = Val (st, Ok i)) \/
  (forall i, ~ is_link U st i s t) /\
  (range_full cf U st /\ d_get_or_create cf U s t st = Val (st, Err (LimitReached (c_iend cf))) \/
   (exists st', (exists d', u_hist cf tops lops st' d') /\ same_links U st st' /\
      d_get_or_create cf U s t st = Val (st', Err AllocFailed)) \/
   (exists st' i, (exists d', u_hist cf tops lops st' d') /\ adds cf U st st' i s t /\
      (distinct_pairs U st -> distinct_pairs U st') /\
      d_get_or_create cf U s t st = Val (st', Ok i) /\ d_get_or_create cf U s t st' = Val (st', Ok i))).
Proof.
  intros U ENV RM HH S0 SA TA. uopen a K D. pose proof (uh_links_ok _ _ _ ENV) as OK.
  destruct (g_get_or_create cf _ U _ OK (e_spu cf) (i_spc _ _ _ ENV RM) (i_spq _ _ _ ENV) st a s t K S0 SA TA)
    as [G|[NL [F|[(st' & K' & G)|(st' & i & K' & AD & G)]]]]; auto.
  - right. split; auto. right; left. exists st'. split; [apply K'|exact G].
  - right. split; auto. right; right. exists st', i. split; [apply K'|]. split; auto. split; auto.
    intros DP. eapply adds_distinct; eauto.
Qed.
Lemma L_C21_nonvacuous : exists st d st', u_hist ex_cf ref_tree_ops ref_list_ops st d /\ distinct_pairs ex_U st /\
  d_get_or_create ex_cf ex_U 2 1 st = Val (st, Ok 3) /\ d_get_or_create ex_cf ex_U 2 2 st = Val (st', Ok 1) /\
  is_link ex_U st' 1 2 2.
Proof.
  destruct ex3h_reach as (d & HH & DP & _). exists (ex_st ex3h), d.
  exists (match d_get_or_create ex_cf ex_U 2 2 (ex_st ex3h) with Val (s, _) => s | _ => ex_start end).
  sp. sp. conj; vm_compute; reflexivity.
Qed.

(** * C22 *)
Lemma L_C22_create_link cf tops lops st d s t :
  let U := unit_links cf tops lops in
  unit_env cf tops lops -> cfg_room cf -> u_hist cf tops lops st d ->
  (range_full cf U st /\ d_create_link U s t st = Val (st, Err (LimitReached (c_iend cf)))) \/
  (exists st', (exists d', u_hist cf tops lops st' d') /\ same_links U st st' /\
     d_create_link U s t st = Val (st', Err AllocFailed)) \/
  (exists st' i, (exists d', u_hist cf tops lops st' d') /\ adds cf U st st' i s t /\
     d_create_link U s t st = Val (st', Ok i)).
Proof.
  intros U ENV RM HH. uopen a K D. pose proof (uh_links_ok _ _ _ ENV) as OK.
  destruct (g_create_link cf _ U _ OK (e_spu cf) (i_spc _ _ _ ENV RM) st a s t K) as [F|[(st' & K' & G)|(st' & K' & G)]]; auto.
  - right; left. exists st'. split; [apply K'|exact G].
  - right; right. exists st', (a_next a). split; [apply K'|exact G].
Qed.
Lemma L_C22_create_point cf tops lops st d :
  let U := unit_links cf tops lops in
  unit_env cf tops lops -> cfg_room cf -> u_hist cf tops lops st d ->
  (range_full cf U st /\ d_create_point U st = Val (st, Err (LimitReached (c_iend cf)))) \/
  (exists st', (exists d', u_hist cf tops lops st' d') /\ same_links U st st' /\
     d_create_point U st = Val (st', Err AllocFailed)) \/
  (exists st' i, (exists d', u_hist cf tops lops st' d') /\ adds cf U st st' i i i /\
     d_create_point U st = Val (st', Ok i)).
Proof.
  intros U ENV RM HH. uopen a K D. pose proof (uh_links_ok _ _ _ ENV) as OK.
  destruct (g_create_point cf _ U _ OK (e_spu cf) (i_spc _ _ _ ENV RM) st a K) as [F|[(st' & K' & G)|(st' & K' & G)]]; auto.
  - right; left. exists st'. split; [apply K'|exact G].
  - right; right. exists st', (a_next a). split; [apply K'|exact G].
Qed.
Lemma L_C22_nonvacuous : exists st d st1 st2, u_hist ex_cf ref_tree_ops ref_list_ops st d /\
  d_create_link ex_U 3 3 st = Val (st1, Ok 1) /\ is_link ex_U st1 1 3 3 /\
  d_create_point ex_U st = Val (st2, Ok 1) /\ is_link ex_U st2 1 1 1 /\ is_link ex_U st2 3 2 1.
Proof.
  destruct ex3h_reach as (d & HH & DP & _). exists (ex_st ex3h), d.
  exists (match d_create_link ex_U 3 3 (ex_st ex3h) with Val (s, _) => s | _ => ex_start end).
  exists (match d_create_point ex_U (ex_st ex3h) with Val (s, _) => s | _ => ex_start end).
  sp. conj; vm_compute; reflexivity.
Qed.

(** * C23 *)
Lemma urun_visit H B (h : uread H B) L : forall x, visit_result h x L (urun h L x).
Proof.
  induction L as [|l L IH]; intros x; cbn [urun].
  - left. exists x. split; [constructor|reflexivity].
  - destruct (h x l) as [x1 [b|]] eqn:E.
    + right. exists [], l, L, x, x1, b. repeat split; auto. constructor.
    + destruct (IH x1) as [(x' & C & ->)|(pre & l' & post & y1 & y2 & b & -> & C & E2 & ->)].
      * left. exists x'. split; auto. econstructor; eauto.
      * right. exists (l :: pre), l', post, y1, y2, b. repeat split; auto. econstructor; eauto.
Qed.
Lemma L_C23_break_stops cf tops lops st d q :
  let U := unit_links cf tops lops in
  unit_env cf tops lops -> u_hist cf tops lops st d ->
  (length q <= 3)%nat -> (length q = 2%nat -> 2 * c_iend cf <= c_tmax cf) ->
  exists L, u_count cf st q = Val (N.of_nat (length L)) /\
    (forall l, In l L -> u_get_link cf st (l_index l) = Val (Some l)) /\
    forall H B (h : uread H B) x, exists r, d_each_by U h q st x = Val r /\ visit_result h x L r.
Proof.
  intros U ENV HH LQ DB. uopen a K D. pose proof (uh_links_ok _ _ _ ENV) as OK.
  destruct (g_visits cf _ U _ OK (i_spq _ _ _ ENV) st a q K LQ DB) as (L & V & VO).
  exists L. split; [apply V|]. split.
  - intros l IN. apply (visits_ok_in _ _ _ _ l VO) in IN.
    change (li_get U st (l_index l) = Val (Some l)). rewrite (lo_get _ _ _ _ OK _ _ _ K).
    apply (in_alinks' a l (lo_wf _ _ _ _ OK _ _ K)) in IN. rewrite IN. destruct l; reflexivity.
  - intros H B h x. exists (urun h L x). split; [now apply d_each_by_ok|apply urun_visit].
Qed.
Lemma L_C23_nonvacuous : exists st d, u_hist ex_cf ref_tree_ops ref_list_ops st d /\
  d_each_by ex_U (fun v l => (v ++ [l_index l], if l_index l =? 4 then Some 77 else None)) [200; 1] st []
    = Val ([1; 3; 1; 4], Some 77).
Proof.
  destruct ex5_reach as (d & HH & _). exists (ex_st ex5), d. sp. vm_compute; reflexivity.
Qed.
(** The modifying methods: a store may call the handler several times, as decorators do, and stop at
    Break.  Then the caller's handler is called with the same links up to the first at which it
    breaks, and the method gives what it broke with. *)
Fixpoint run_w {H} (h : whandler H) (ps : list (link * link)) (x : H) : H * flow :=
  match ps with
  | [] => (x, Continue)
  | (b, a) :: ps' => match h x b a with (x', Continue) => run_w h ps' x' | (x', Break) => (x', Break) end
  end.
Definition calls_each {S} (call : wcall S) (st' : S) (ps : list (link * link)) : Prop :=
  forall H (h : whandler H) x, call H h x = Val (st', fst (run_w h ps x), Ok (snd (run_w h ps x))).
Fixpoint heard {H B} (h : uwrite H B) (ps : list (link * link)) (x : H) : H * option B :=
  match ps with
  | [] => (x, None)
  | (b, a) :: ps' => match h x b a with (x', None) => heard h ps' x' | (x', Some r) => (x', Some r) end
  end.
Lemma run_wadapt {H B} (h : uwrite H B) ps : forall x, fst (run_w (wadapt h) ps (x, None)) = heard h ps x.
Proof.
  induction ps as [|[b a] ps IH]; intros x; [reflexivity|]. cbn. destruct (h x b a) as [x' [r|]]; [reflexivity|apply IH].
Qed.
Lemma L_C23_modifying_break S (I : LinksI S) st st' q ch ps H B (h : uwrite H B) x :
  let heard_r := Val (st', fst (heard h ps x), Ok (snd (heard h ps x))) in
  (calls_each (fun H h x => li_create I H h q st x) st' ps -> d_create_by_with I h q st x = heard_r) /\
  (calls_each (fun H h x => li_update I H h q ch st x) st' ps -> d_update_by_with I h q ch st x = heard_r) /\
  (calls_each (fun H h x => li_delete I H h q st x) st' ps -> d_delete_by_with I h q st x = heard_r).
Proof.
  intros R. pose proof (run_wadapt h ps x) as E. subst R. rewrite <- E.
  split; [|split]; intros C; specialize (C _ (wadapt h) (x, None)); cbv beta in C.
  - unfold d_create_by_with. rewrite C. cbn [obind]. destruct (run_w (wadapt h) ps (x, None)) as [[x' o] f]. reflexivity.
  - unfold d_update_by_with. rewrite C. cbn [obind]. destruct (run_w (wadapt h) ps (x, None)) as [[x' o] f]. reflexivity.
  - unfold d_delete_by_with. rewrite C. cbn [obind]. destruct (run_w (wadapt h) ps (x, None)) as [[x' o] f]. reflexivity.
Qed.
(** A store with several links to tell of. *)
Definition chatty (ps : list (link * link)) : LinksI N :=
  let f := fun H (h : whandler H) (n : N) x => let (x', r) := run_w h ps x in Val (n + 1, x', Ok r) in
  mkLinksI N (fun _ _ => Val 0) (fun H h _ n x => f H h n x) (fun H _ _ _ x => Val (x, Continue))
    (fun H h _ _ n x => f H h n x) (fun H h _ n x => f H h n x) (fun _ _ => Val None).
Lemma L_C23_modifying_nonvacuous :
  let ps := [(nothing, mkLink 1 0 0); (nothing, mkLink 2 0 0); (nothing, mkLink 3 0 0)] in
  calls_each (fun H h x => li_create (chatty ps) H h [] 7 x) 8 ps /\
  calls_each (fun H h x => li_update (chatty ps) H h [1] [1; 2; 3] 7 x) 8 ps /\
  calls_each (fun H h x => li_delete (chatty ps) H h [1] 7 x) 8 ps /\
  d_delete_by_with (chatty ps) (fun v _ a => (v ++ [l_index a], if l_index a =? 2 then Some tt else None)) [1] 7 [] = Val (8, [1; 2], Ok (Some tt)) /\
  d_delete_by_with (chatty ps) (B := unit) (fun v _ a => (v ++ [l_index a], None)) [1] 7 [] = Val (8, [1; 2; 3], Ok None).
Proof.
  intros ps. assert (X : forall H (h : whandler H) (x : H), (let (x', r) := run_w h ps x in Val (7 + 1, x', Ok r)) = Val (8, fst (run_w h ps x), Ok (snd (run_w h ps x)))).
  { intros H h x. destruct (run_w h ps x). reflexivity. }
  split; [|split; [|split; [|split]]]; try (intros H h x; apply X); reflexivity.
Qed.

(** * C24 *)
Lemma L_C24_find_single_iter cf tops lops st d q :
  let U := unit_links cf tops lops in
  unit_env cf tops lops -> u_hist cf tops lops st d ->
  (length q <= 3)%nat -> (length q = 2%nat -> 2 * c_iend cf <= c_tmax cf) ->
  exists L,
    (forall H (h : rhandler H) x, u_each cf h q st x = Val (run_handler h L x)) /\
    d_find U st q = Val (match L with [] => None | l :: _ => Some l end) /\
    (exists b, d_found U st q = Val b /\ (b = true <-> L <> [])) /\
    (exists o, d_single U st q = Val o /\ forall l, o = Some l <-> L = [l]) /\
    d_each_iter U st q = Val L /\ u_count cf st q = Val (N.of_nat (length L)) /\
    (q = [c_any cf; c_any cf; c_any cf] -> d_iter cf U st = Val L).
Proof.
  intros U ENV HH LQ DB. uopen a K D.
  destruct (g_visits cf _ U _ (uh_links_ok _ _ _ ENV) (i_spq _ _ _ ENV) st a q K LQ DB) as (L & V & _).
  exists L. split; [apply V|]. split; [rewrite (d_find_ok _ _ _ _ V); now destruct L|].
  split. { eexists. split; [exact (d_found_ok _ _ _ _ V)|]. destruct L; split; congruence. }
  split. { eexists. split; [exact (d_single_ok _ _ _ _ V)|]. intros l. destruct L as [|l1 [|l2 L]]; split; congruence. }
  split; [now apply d_each_iter_ok|]. split; [apply V|].
  intros ->. unfold d_iter. now apply d_each_iter_ok.
Qed.
Lemma L_C24_nonvacuous : exists st d, u_hist ex_cf ref_tree_ops ref_list_ops st d /\
  d_find ex_U st [200; 1; 200] = Val (Some (mkLink 1 1 1)) /\ d_single ex_U st [200; 1; 200] = Val None /\
  d_single ex_U st [200; 3; 200] = Val (Some (mkLink 5 3 1)) /\ d_found ex_U st [200; 5; 200] = Val false.
Proof.
  destruct ex5_reach as (d & HH & _). exists (ex_st ex5), d. sp. conj; vm_compute; reflexivity.
Qed.

(** * C33 *)
Lemma L_C33_queries_partial cf tops lops st d q :
  unit_env cf tops lops -> u_hist cf tops lops st d ->
  (length q <= 3)%nat -> (length q = 2%nat -> 2 * c_iend cf <= c_tmax cf) ->
  returns (u_count cf st q) /\ forall H (h : rhandler H) x, returns (u_each cf h q st x).
Proof.
  intros ENV HH LQ DB. uopen a K D. set (U := unit_links cf tops lops).
  destruct (g_visits cf _ U _ (uh_links_ok _ _ _ ENV) (i_spq _ _ _ ENV) st a q K LQ DB) as (L & [V1 V2] & _).
  split; [eexists; exact V2|]. intros H h x. eexists. exact (V1 H h x).
Qed.
Lemma L_C33_partial_nonvacuous : exists st d, u_hist ex_cf ref_tree_ops ref_list_ops st d /\
  u_count ex_cf st [200; 1] = Val 5 /\ u_count ex_cf st [3; 200; 2] = Val 1.
Proof.
  destruct ex5_reach as (d & HH & _). exists (ex_st ex5), d. sp. conj; vm_compute; reflexivity.
Qed.
(** Longer queries always panic. *)
Lemma L_C33_long_queries_panic cf st q : (3 < length q)%nat ->
  u_count cf st q = Panic /\ forall H (h : rhandler H) x, u_each cf h q st x = Panic.
Proof.
  intros LQ. destruct q as [|a [|b [|c [|e q]]]]; cbn in LQ; try lia.
  split; [unfold u_count|intros H h x; unfold u_each]; unfold qget; destruct (nth_error _ _); reflexivity.
Qed.
Lemma L_C33_queries_refuted : exists st d, u_hist ex_cf ref_tree_ops ref_list_ops st d /\
  u_count ex_cf st [200; 1; 1; 1] = Panic /\
  u_each ex_cf (fun (x : unit) _ => (x, Continue)) [200; 1; 1; 1] st tt = Panic.
Proof.
  destruct ex5_reach as (d & HH & _). exists (ex_st ex5), d. sp. split; reflexivity.
Qed.

(** * C34 *)
Lemma L_C34_open_partial cf tops lops orc :
  unit_env cf tops lops -> c_step cf - 1 <= c_tmax cf ->
  orc 0%nat (c_page cf) = true -> orc 1%nat (c_step cf) = true ->
  exists st, u_open cf (u_blank orc) = Val (Ok st) /\ u_hist cf tops lops st [] /\
    (forall i, no_link (unit_links cf tops lops) st i) /\ u_count cf st [] = Val 0.
Proof.
  intros ENV T O1 O2. pose proof (e_ok _ _ _ ENV) as OK. set (U := unit_links cf tops lops).
  destruct (u_open_blank cf (e_cf _ _ _ ENV) orc T O1 O2) as (st & E & K & _).
  exists st. split; auto. split; [apply hist_start; now exists orc|].
  split; [intros i; now apply (ob_none cf _ U _ OK _ _ _ K)|].
  assert (SQ : forall st a q, uinv cf st a -> (length q <= 3)%nat -> (length q = 2%nat -> 2 * c_iend cf <= c_tmax cf) ->
    sp_query (unit_spec cf) a q) by (intros; eapply e_spq; eauto).
  exact (count_R cf _ U _ OK SQ _ _ K).
Qed.
(** 2^20 links per growth step and a 32-bit address type *)
Definition cf_u32 : cfg := mkCfg (2 ^ 32 - 1) (2 ^ 20) 4096 0 1 2 0 (2 ^ 32 - 2) 1 (2 ^ 31) None.
Lemma L_C34_partial_nonvacuous : unit_env cf_u32 ref_tree_ops ref_list_ops /\ c_step cf_u32 - 1 <= c_tmax cf_u32.
Proof.
  split; [|vm_compute; discriminate]. split; [|split; [exact ref_tree_ops_ok|exact ref_list_ops_ok]].
  constructor; try reflexivity; try (vm_compute; reflexivity); try (vm_compute; discriminate).
Qed.
(** Opening panics whenever the step does not fit the address type: the real step
    2^20 with 8- or 16-bit addresses. *)
Lemma L_C34_open_panics cf orc : cfg_ok cf -> c_tmax cf < c_step cf - 1 ->
  orc 0%nat (c_page cf) = true -> orc 1%nat (c_step cf) = true ->
  u_open cf (u_blank orc) = Panic.
Proof.
  intros CF T O1 O2. pose proof (ok_step _ CF). pose proof (ok_page _ CF). unfold u_open, u_alloc_mem.
  cbn [u_orc u_blank]. rewrite O1. unfold u_header at 1. cbn [u_len].
  destruct (N.ltb_spec 0 (c_page cf)); [|lia]. cbn [obind u_orc].
  change (h_alloc (mkU (c_page cf) _ (u_data (u_blank orc)) (u_src (u_blank orc)) (u_tgt (u_blank orc)))) with 0.
  rewrite N.max_l by lia. rewrite O2. unfold u_header. cbn [u_len].
  destruct (N.ltb_spec 0 (c_step cf)); [|lia]. cbn [obind]. rewrite csub_ok by lia. cbn [obind].
  unfold ctry. destruct (N.leb_spec (c_step cf - 1) (c_tmax cf)); [lia|reflexivity].
Qed.
Definition cf_u16 : cfg := mkCfg (2 ^ 16 - 1) (2 ^ 20) 4096 0 1 2 0 (2 ^ 16 - 2) 1 (2 ^ 15) None.
Lemma L_C34_open_refuted : unit_env cf_u16 ref_tree_ops ref_list_ops /\
  u_open cf_u16 (u_blank (fun _ _ => true)) = Panic.
Proof.
  split; [|vm_compute; reflexivity]. split; [|split; [exact ref_tree_ops_ok|exact ref_list_ops_ok]].
  constructor; try reflexivity; try (vm_compute; reflexivity); try (vm_compute; discriminate).
Qed.

(** * C35 *)
Lemma L_C35_create_until_full_partial cf tops lops st d :
  let U := unit_links cf tops lops in
  unit_env cf tops lops -> cfg_room cf -> u_hist cf tops lops st d ->
  (forall k n, u_orc st k n = true) -> ~ range_full cf U st ->
  exists st' i, d_create U st = Val (st', Ok i) /\ creates cf U st st' i /\ u_hist cf tops lops st' d.
Proof.
  intros U ENV RM HH O NF. destruct (u_hist_inv cf tops lops ENV st d HH) as (a & K & D).
  destruct (u_create_obs cf tops lops st d a [] ENV HH K) as [(_ & NH & _ & T & P)|[[RF _]|[(_ & _ & OF & _)|(_ & st' & H' & C' & C)]]].
  - exfalso. destruct (L_C11_no_panic cf tops lops st d ENV RM HH) as (_ & _ & _ & R & _).
    destruct (R unit cont [] tt) as [v E]. rewrite P in E. discriminate.
  - contradiction.
  - rewrite O in OF. discriminate.
  - exists st', (a_next a). split; [|auto]. apply (d_create_once U st [] st' (a_next a) 0 0). exact C.
Qed.
Lemma L_C35_partial_nonvacuous : cfg_room ex_cf /\ exists st d, u_hist ex_cf ref_tree_ops ref_list_ops st d /\
  (forall k n, u_orc st k n = true) /\ ~ range_full ex_cf ex_U st.
Proof.
  split; [exact ex_cf_room|]. destruct (ex_reach ex8) as (d & HH & K); [vm_compute; reflexivity..|].
  exists (ex_st ex8), d. sp. split; [intros k n; vm_compute; reflexivity|].
  intros RF. specialize (RF 9 ltac:(cbn; lia)).
  apply (ob_top ex_cf _ ex_U _ (e_ok _ _ _ ex_env) _ _ K) in RF. vm_compute (a_top _) in RF. lia.
Qed.
(** 15 links in memory for 16, 18 internal indices, address type up to 20, step 8: the
    next creation panics while growing although the range is not full. *)
Definition ex_cf20 : cfg := mkCfg 20 8 4 0 1 2 0 19 1 18 None.
Definition ex20_next (st : ust) : ust :=
  match u_create ex_cf20 ref_list_ops cont [] st tt with Val (st', _, _) => st' | _ => st end.
Definition ex20_start : ust :=
  match u_open ex_cf20 (u_blank (fun _ _ => true)) with Val (Ok st) => st | _ => u_blank (fun _ _ => true) end.
Definition ex20 (n : nat) : ust := Nat.iter n ex20_next ex20_start.
Lemma L_C35_create_until_full_refuted : unit_env ex_cf20 ref_tree_ops ref_list_ops /\
  exists st, u_hist ex_cf20 ref_tree_ops ref_list_ops st [] /\ (forall k n, u_orc st k n = true) /\
    no_link (unit_links ex_cf20 ref_tree_ops ref_list_ops) st 16 /\
    d_create (unit_links ex_cf20 ref_tree_ops ref_list_ops) st = Panic.
Proof.
  split.
  { split; [|split; [exact ref_tree_ops_ok|exact ref_list_ops_ok]].
    constructor; try reflexivity; try (vm_compute; reflexivity); try (vm_compute; discriminate). }
  exists (ex20 15). split; [|split; [intros k n|split]; vm_compute; reflexivity].
  assert (G : forall n, (n <= 15)%nat -> u_hist ex_cf20 ref_tree_ops ref_list_ops (ex20 n) []).
  { induction n as [|n IH]; intros LE.
    - apply hist_start. exists (fun _ _ => true). vm_compute; reflexivity.
    - eapply (hist_create _ _ _ _ _ (ex20 n) [] unit cont [] tt _ tt (Ok Continue)); [apply IH; lia|].
      clear IH. do 15 (destruct n as [|n]; [vm_compute; reflexivity|]). lia. }
  apply G. lia.
Qed.

(** * C42 *)
Lemma L_C42_delete_query cf tops lops st d q :
  let U := unit_links cf tops lops in
  unit_env cf tops lops -> u_hist cf tops lops st d ->
  (length q <= 3)%nat -> (length q = 2%nat -> 2 * c_iend cf <= c_tmax cf) ->
  ~ null_query (c_any cf) q -> ~ end_query (c_any cf) q ->
  (forall l, u_get_link cf st (l_index l) = Val (Some l) -> query_match (c_any cf) q l -> separable U st (l_index l)) ->
  exists st' L, (exists d', u_hist cf tops lops st' d') /\ NoDup L /\
    (forall l, In l L <-> u_get_link cf st (l_index l) = Val (Some l) /\ query_match (c_any cf) q l) /\
    removed U st st' L /\
    forall H B (h : uwrite H B) x, d_delete_query_with U h q st x = Val (st', told h (rev L) x, Ok tt).
Proof.
  intros U ENV HH LQ DB NQ EQ DP. uopen a K D. pose proof (uh_links_ok _ _ _ ENV) as OK.
  destruct (g_match cf (e_cf _ _ _ ENV) _ U _ OK (i_spq _ _ _ ENV) st a q K LQ DB NQ EQ
              (fun P => separable_one_match _ U st _ P NQ DP)) as (L & V & ND & M).
  destruct (g_delete_visits cf _ U _ OK (e_spd cf) st a q L K) as (st' & K' & RM & T); auto.
  { intros l IN. apply M in IN as [I1 I2]. now apply DP. }
  { intros l IN. now apply M. }
  exists st', L. split; [apply K'|]. auto.
Qed.
Lemma L_C42_nonvacuous : exists st d st', u_hist ex_cf ref_tree_ops ref_list_ops st d /\
  is_link ex_U st 2 1 2 /\ is_link ex_U st 4 1 2 /\
  (forall l, u_get_link ex_cf st (l_index l) = Val (Some l) -> query_match 200 [200; 200; 1] l -> separable ex_U st (l_index l)) /\
  ~ null_query 200 [200; 200; 1] /\ ~ end_query 200 [200; 200; 1] /\
  d_delete_query_with (B := unit) ex_U (fun v b _ => (v ++ [b], None)) [200; 200; 1] st []
    = Val (st', [mkLink 3 2 1; mkLink 1 1 1], Ok tt).
Proof.
  destruct ex4d_reach as (d & HH & [S1 S3] & L1 & L2 & L3 & L4). exists (ex_st ex4d), d.
  exists (match d_delete_query_with (B := unit) ex_U (fun v b _ => (v ++ [b], None)) [200; 200; 1] (ex_st ex4d) [] with
          Val (s, _, _) => s | _ => ex_start end).
  split; [exact HH|]. split; [exact L2|]. split; [exact L4|].
  split; [|split; [cbn; intuition discriminate|split; [cbn; tauto|vm_compute; reflexivity]]].
  intros [i s t] G (_ & _ & [C|C]); [discriminate|]. cbn [l_index l_target] in *. subst t.
  destruct (ex_reach ex4d) as (d' & _ & K); [vm_compute; reflexivity..|].
  assert (LK : linked ex_U (ex_st ex4d) i) by (exists s, 1; exact G).
  apply (ob_top ex_cf _ ex_U _ (e_ok _ _ _ ex_env) _ _ K) in LK.
  each_index LK; [exact S1| |exact S3|]; vm_compute in G; discriminate.
Qed.

(** * C43 *)
Lemma L_C43_exist cf tops lops st d i :
  let U := unit_links cf tops lops in
  unit_env cf tops lops -> u_hist cf tops lops st d ->
  exists b, d_exist cf U st i = Val b /\ (b = true <-> is_external cf i = true \/ linked U st i).
Proof.
  intros U ENV HH. uopen a K D.
  exact (g_exist cf (e_cf _ _ _ ENV) _ U _ (uh_links_ok _ _ _ ENV) (i_spq _ _ _ ENV) st a i K).
Qed.
Lemma L_C43_nonvacuous : exists st d, u_hist ex_cf ref_tree_ops ref_list_ops st d /\
  d_exist ex_cf ex_U st 1 = Val false /\ d_exist ex_cf ex_U st 2 = Val true /\
  d_exist ex_cf ex_U st 333 = Val true /\ d_exist ex_cf ex_U st 200 = Val false.
Proof.
  destruct ex3h_reach as (d & HH & _). exists (ex_st ex3h), d. sp. conj; vm_compute; reflexivity.
Qed.

(** * C45, single-memory store *)
Lemma L_C45_alloc_failed_unit cf tops lops st d q :
  let U := unit_links cf tops lops in
  unit_env cf tops lops -> u_hist cf tops lops st d ->
  (u_orc st 0%nat (u_len st + c_step cf) = false -> forall H (h : whandler H) x, returns (u_create cf lops h q st x)) /\
  (forall H (h : whandler H) x st' x', u_create cf lops h q st x = Val (st', x', Err AllocFailed) ->
     x' = x /\ same_links U st st' /\ u_hist cf tops lops st' d /\
     u_data st' = u_data st /\ u_src st' = u_src st /\ u_tgt st' = u_tgt st /\ u_len st' = u_len st /\
     (forall q, u_count cf st' q = u_count cf st q)).
Proof.
  intros U ENV HH. destruct (u_hist_inv cf tops lops ENV st d HH) as (a & K & D).
  pose proof ENV as (CF & _ & LOK). pose proof (e_ok _ _ _ ENV) as OK. split.
  - intros OF H h x.
    destruct (u_create_ok cf CF lops LOK st a q K) as [(_ & _ & _ & O & _)|[[F1 F]|[(N1 & N2 & N3 & K' & F)|(N1 & st' & K' & C)]]].
    + congruence.
    + eexists. apply F.
    + eexists. apply F.
    + rewrite C. eexists; reflexivity.
  - intros H h x st' x' E.
    destruct (u_create_ok cf CF lops LOK st a q K) as [(_ & _ & _ & _ & _ & _ & P)|[[F1 F]|[(N1 & N2 & N3 & K' & F)|(N1 & st2 & K' & C)]]].
    + rewrite P in E. discriminate.
    + rewrite F in E. discriminate.
    + rewrite F in E. injection E as <- <-. split; auto.
      split; [intros j; now apply (ob_get cf _ U _ OK _ _ _ _ K K')|].
      split; [|repeat split; reflexivity].
      eapply (hist_create _ _ _ _ _ st d unit cont q tt); eauto.
    + rewrite C in E. discriminate.
Qed.
(** memory for 8 cells, no growth: six links fit *)
Definition exo_start : ust :=
  match u_open ex_cf (u_blank (fun _ n => n <=? 8)) with Val (Ok st) => st | _ => ex_start end.
Definition exo (n : nat) : ust := Nat.iter n (fun st =>
  match u_create ex_cf ref_list_ops cont [] st tt with Val (st', _, _) => st' | _ => st end) exo_start.
Lemma L_C45_unit_nonvacuous : exists st st', u_hist ex_cf ref_tree_ops ref_list_ops st [] /\
  u_create ex_cf ref_list_ops (fun n _ _ => (n + 1, Continue)) [] st 0 = Val (st', 0, Err AllocFailed) /\
  is_link ex_U st' 6 0 0.
Proof.
  exists (exo 6), (u_alloc_failed (exo 6)).
  split; [|split; vm_compute; reflexivity].
  assert (G : forall n, (n <= 6)%nat -> u_hist ex_cf ref_tree_ops ref_list_ops (exo n) []).
  { induction n as [|n IH]; intros LE.
    - apply hist_start. exists (fun _ n => n <=? 8). vm_compute; reflexivity.
    - eapply (hist_create _ _ _ _ _ (exo n) [] unit cont [] tt _ tt (Ok Continue)); [apply IH; lia|].
      clear IH. do 6 (destruct n as [|n]; [vm_compute; reflexivity|]). lia. }
  apply G. lia.
Qed.

(** * C47 *)
Lemma L_C47_returned_index_partial cf tops lops st d i s t :
  let U := unit_links cf tops lops in
  unit_env cf tops lops -> u_hist cf tops lops st d ->
  (linked U st i -> separable U st i -> exists st', d_update U i s t st = Val (st', Ok i) /\ is_link U st' i s t) /\
  (forall st' j, d_create U st = Val (st', Ok j) -> no_link U st j /\ is_link U st' j 0 0).
Proof.
  intros U ENV HH. split.
  - intros LI SE. uopen a K D. pose proof (uh_links_ok _ _ _ ENV) as OK.
    apply (ob_linked cf _ U _ OK _ _ _ K) in LI. apply (ob_sep cf _ U _ OK _ _ _ K) in SE.
    destruct (d_update_with_ok cf _ U _ OK st a i s t K LI SE) as (st' & b & K' & _ & E).
    exists st'. split; auto. apply (ob_link cf _ U _ OK _ _ _ _ _ K'). cbn. now rewrite upd_same.
  - intros st' j E. destruct (u_hist_inv cf tops lops ENV st d HH) as (a & K & D).
    destruct (u_create_obs cf tops lops st d a [] ENV HH K) as [(_ & _ & _ & _ & P)|[[_ F]|[(_ & _ & _ & st2 & _ & _ & _ & F)|(_ & st2 & H2 & C2 & C)]]].
    + unfold d_create, d_create_by, d_create_by_with in E. cbn [U unit_links li_create] in E. rewrite P in E. discriminate.
    + change (d_create_by U [] st = Val (st', Ok j)) in E. rewrite (d_create_fail U st [] st _ F) in E. discriminate.
    + change (d_create_by U [] st = Val (st', Ok j)) in E. rewrite (d_create_fail U st [] st2 _ F) in E. discriminate.
    + change (d_create_by U [] st = Val (st', Ok j)) in E. rewrite (d_create_once U st [] st2 (a_next a) 0 0 C) in E.
      injection E as <- <-. split; apply C2.
Qed.
Lemma L_C47_partial_nonvacuous : exists st d st1 st2, u_hist ex_cf ref_tree_ops ref_list_ops st d /\
  linked ex_U st 3 /\ separable ex_U st 3 /\ d_update ex_U 3 2 2 st = Val (st1, Ok 3) /\ d_create ex_U st = Val (st2, Ok 1).
Proof.
  destruct ex3h_reach as (d & HH & DP & _ & _ & L3). exists (ex_st ex3h), d.
  exists (match d_update ex_U 3 2 2 (ex_st ex3h) with Val (s, _) => s | _ => ex_start end).
  exists (match d_create ex_U (ex_st ex3h) with Val (s, _) => s | _ => ex_start end).
  sp. split; [eexists; eauto|]. split; [now apply distinct_separable|]. split; vm_compute; reflexivity.
Qed.
(** A successful delete always returns 0. *)
Lemma L_C47_delete_returns_zero cf tops lops st d i :
  let U := unit_links cf tops lops in
  unit_env cf tops lops -> u_hist cf tops lops st d -> linked U st i -> separable U st i ->
  exists st', d_delete U i st = Val (st', Ok 0).
Proof.
  intros U ENV HH LI SE. uopen a K D. pose proof (uh_links_ok _ _ _ ENV) as OK.
  apply (ob_linked cf _ U _ OK _ _ _ K) in LI. apply (ob_sep cf _ U _ OK _ _ _ K) in SE.
  destruct (a_map a i) as [[s t]|] eqn:M; [|congruence].
  destruct (d_delete_with_ok cf _ U _ OK st a i s t K M SE) as (st' & _ & _ & E). eauto.
Qed.
(** The methods that give an index read it from the call of the handler: a store that succeeds
    without calling the handler makes them give 0. *)
Definition silent {S} (call : wcall S) (st' : S) : Prop := exists f, forall H (h : whandler H) x, call H h x = Val (st', x, Ok f).
Lemma L_C47_silent_store S (I : LinksI S) st st' st2 q ch s t :
  (silent (fun H h x => li_create I H h q st x) st' -> d_create_by I q st = Val (st', Ok 0)) /\
  (silent (fun H h x => li_update I H h q ch st x) st' -> d_update_by I q ch st = Val (st', Ok 0)) /\
  (silent (fun H h x => li_delete I H h q st x) st' -> d_delete_by I q st = Val (st', Ok 0)) /\
  (silent (fun H h x => li_create I H h [] st x) st' -> silent (fun H h x => li_update I H h [0] [0; s; t] st' x) st2 ->
   d_create_link I s t st = Val (st2, Ok 0)).
Proof.
  split; [|split; [|split]].
  - intros (f & E). unfold d_create_by, d_create_by_with. rewrite E. reflexivity.
  - intros (f & E). unfold d_update_by, d_update_by_with. rewrite E. reflexivity.
  - intros (f & E). unfold d_delete_by, d_delete_by_with. rewrite E. reflexivity.
  - intros (f & E1) (g & E2). unfold d_create_link, d_create_link_with, d_create_with, d_create_by_with. rewrite E1. cbn [obind rmap fst].
    unfold d_update_with, d_update_by_with. rewrite E2. reflexivity.
Qed.
(** A store that only counts its calls. *)
Definition counting : LinksI N :=
  mkLinksI N (fun _ _ => Val 0) (fun H _ _ n x => Val (n + 1, x, Ok Continue)) (fun H _ _ _ x => Val (x, Continue))
    (fun H _ _ _ n x => Val (n + 1, x, Ok Continue)) (fun H _ _ n x => Val (n + 1, x, Ok Continue)) (fun _ _ => Val None).
Lemma L_C47_silent_nonvacuous :
  silent (fun H h x => li_create counting H h [] 7 x) 8 /\ silent (fun H h x => li_update counting H h [0] [0; 1; 2] 8 x) 9 /\
  silent (fun H h x => li_delete counting H h [3] 7 x) 8 /\ d_create_link counting 1 2 7 = Val (9, Ok 0).
Proof. split; [|split; [|split]]; try (exists Continue); reflexivity. Qed.
Lemma L_C47_returned_index_refuted : exists st d st1 st2, u_hist ex_cf ref_tree_ops ref_list_ops st d /\
  is_link ex_U st 3 2 1 /\ d_delete ex_U 3 st = Val (st1, Ok 0) /\
  d_rebase_and_delete ex_cf ex_U 2 3 st = Val (st2, Ok 0).
Proof.
  destruct ex3h_reach as (d & HH & DP & _ & _ & L3). exists (ex_st ex3h), d.
  exists (match d_delete ex_U 3 (ex_st ex3h) with Val (s, _) => s | _ => ex_start end).
  exists (match d_rebase_and_delete ex_cf ex_U 2 3 (ex_st ex3h) with Val (s, _) => s | _ => ex_start end).
  sp. sp. split; vm_compute; reflexivity.
Qed.

(** * C50 *)
(** What is left after [old] has been merged into [new]. *)
Definition merged {S} (U : LinksI S) (st : S) (old new i s' t' : N) : Prop :=
  i <> old /\ exists s t, is_link U st i s t /\ s' = redirect old new s /\ t' = redirect old new t.
Lemma L_C50_rebase_and_delete_partial cf tops lops st d old new :
  let U := unit_links cf tops lops in
  unit_env cf tops lops -> u_hist cf tops lops st d ->
  (old = new -> d_rebase_and_delete cf U old new st = Val (st, Ok new)) /\
  (old <> new -> no_link U st old -> d_rebase_and_delete cf U old new st = Val (st, Err (NotExists old))) /\
  (distinct_pairs U st -> old <> new -> linked U st old -> (forall x, x <> old -> ~ is_link U st x old old) ->
   (forall i j s t, moved U st old new i s t -> moved U st old new j s t -> (s, t) <> (0, 0) -> i = j) ->
   exists st', (exists d', u_hist cf tops lops st' d') /\ d_rebase_and_delete cf U old new st = Val (st', Ok 0) /\
     no_link U st' old /\ (forall i s t, is_link U st' i s t <-> merged U st old new i s t)).
Proof.
  intros U ENV HH. uopen a K D. pose proof (uh_links_ok _ _ _ ENV) as OK. split; [|split].
  - intros ->. unfold d_rebase_and_delete. now rewrite N.eqb_refl.
  - intros NE NL. unfold d_rebase_and_delete. destruct (N.eqb_spec old new); [contradiction|].
    unfold d_rebase. apply (ob_none cf _ U _ OK _ _ _ K) in NL.
    rewrite (d_rebase_none cf _ U _ OK st a old new unit unit _ _ K NL). reflexivity.
  - intros DP NE LK NB MI.
    destruct (g_rebase cf (e_cf _ _ _ ENV) _ U _ OK (e_spu cf) (i_spq _ _ _ ENV) st a old new K NE LK DP NB MI)
      as (st1 & a1 & K1 & E1 & M1 & _).
    destruct LK as (s0 & t0 & L0).
    assert (L1 : is_link U st1 old s0 t0).
    { apply M1. exists s0, t0. split; auto. rewrite N.eqb_refl. auto. }
    assert (SE : separable U st1 old).
    { apply distinct_separable. intros i j s t A B NZ. apply (MI i j s t); auto; now apply M1. }
    pose proof (proj1 (ob_link cf _ U _ OK _ _ _ _ _ K1) L1) as L1a.
    pose proof (proj1 (ob_sep cf _ U _ OK _ _ _ K1) SE) as SEa.
    destruct (d_delete_with_ok cf _ U _ OK st1 a1 old s0 t0 K1 L1a SEa) as (st2 & K2 & _ & E2).
    exists st2. split; [apply K2|]. split.
    + unfold d_rebase_and_delete. destruct (N.eqb_spec old new); [contradiction|]. rewrite E1. exact E2.
    + pose proof (a_delete_map a1 old) as MD.
      split; [apply (ob_none cf _ U _ OK _ _ _ K2); rewrite MD; apply upd_same|].
      intros i s t. rewrite (ob_link cf _ U _ OK _ _ _ _ _ K2), MD. unfold merged.
      destruct (N.eq_dec i old) as [->|NI].
      * rewrite upd_same. split; [discriminate|tauto].
      * rewrite upd_other by auto. rewrite <- (ob_link cf _ U _ OK _ _ _ _ _ K1), M1. unfold moved.
        destruct (N.eqb_spec i old); [contradiction|]. tauto.
Qed.
Lemma L_C50_partial_nonvacuous : exists st d st', u_hist ex_cf ref_tree_ops ref_list_ops st d /\
  distinct_pairs ex_U st /\ linked ex_U st 1 /\ (forall x, x <> 1 -> ~ is_link ex_U st x 1 1) /\
  (forall i j s t, moved ex_U st 1 5 i s t -> moved ex_U st 1 5 j s t -> (s, t) <> (0, 0) -> i = j) /\
  is_link ex_U st 3 1 2 /\ no_link ex_U st 7 /\
  d_rebase_and_delete ex_cf ex_U 1 5 st = Val (st', Ok 0) /\ no_link ex_U st' 1 /\
  is_link ex_U st' 3 5 2 /\ is_link ex_U st' 4 3 5 /\ is_link ex_U st' 5 0 0.
Proof.
  destruct (ex_reach ex5r) as (d & HH & K); [vm_compute; reflexivity..|]. exists (ex_st ex5r), d.
  exists (match d_rebase_and_delete ex_cf ex_U 1 5 (ex_st ex5r) with Val (s, _) => s | _ => ex_start end).
  sp. split; [apply ex_distinct; vm_compute; reflexivity|].
  split; [exists 1, 1; vm_compute; reflexivity|].
  split; [exact ex5r_ends|]. split; [exact ex5r_moved|]. conj; vm_compute; reflexivity.
Qed.
(** A usage with [old] at both ends still refers to [old], which no longer exists. *)
Lemma L_C50_rebase_and_delete_refuted : exists st d st', u_hist ex_cf ref_tree_ops ref_list_ops st d /\
  distinct_pairs ex_U st /\ is_link ex_U st 2 1 1 /\
  d_rebase_and_delete ex_cf ex_U 1 3 st = Val (st', Ok 0) /\ no_link ex_U st' 1 /\ is_link ex_U st' 2 1 3.
Proof.
  set (l := [Cr; Cr; Cr; Up 2 1 1]).
  destruct (ex_reach l) as (d & HH & K); [vm_compute; reflexivity..|].
  exists (ex_st l), d. exists (match d_rebase_and_delete ex_cf ex_U 1 3 (ex_st l) with Val (s, _) => s | _ => ex_start end).
  sp. split; [apply ex_distinct; vm_compute; reflexivity|]. conj; vm_compute; reflexivity.
Qed.

(** * C48 *)
Lemma L_C48_null_queries_find_nothing cf tops lops st d q :
  unit_env cf tops lops -> u_hist cf tops lops st d -> null_query (c_any cf) q ->
  (length q = 2%nat -> 2 * c_iend cf <= c_tmax cf) ->
  u_count cf st q = Val 0 /\ forall H (h : rhandler H) x, u_each cf h q st x = Val (x, Continue).
Proof.
  intros ENV HH NQ DB. uopen a K D. set (U := unit_links cf tops lops).
  destruct (g_null cf (e_cf _ _ _ ENV) _ U _ (uh_links_ok _ _ _ ENV) (i_spq _ _ _ ENV) st a q K DB NQ) as [V1 V2].
  split; [exact V2|exact V1].
Qed.
Lemma L_C48_null_queries_refuted : exists st d, u_hist ex_cf ref_tree_ops ref_list_ops st d /\
  is_link ex_U st 1 0 0 /\ query_match 200 [200; 0; 200] (mkLink 1 0 0) /\
  u_count ex_cf st [200; 0; 200] = Val 0 /\ u_count ex_cf st [200; 200; 0] = Val 0.
Proof.
  destruct (ex_reach ex8) as (d & HH & K); [vm_compute; reflexivity..|].
  exists (ex_st ex8), d. sp. split; [vm_compute; reflexivity|]. split; [cbn; unfold part_match; auto|].
  split; vm_compute; reflexivity.
Qed.
