(** Failures that happen on every store, where DefaultClaims.v and DecoratorClaims.v show
    examples (proofs; the statements are repeated in PropFailures.v). *)
From Coq Require Import NArith List Bool Lia Permutation Sorted.
From Verif Require Import Base Trees Lists TreeImpl Spec Iface Doublets DoubletsOK Obs Hist Claims Decorators
  UnitModel UnitInv UnitOps UnitLinks UnitHist UnitClaims GoodStore DecoratorClaims DefaultClaims.
Import ListNotations.
Open Scope N_scope.

Ltac sp := split; [solve [auto]|].

(** * C36, C37, C41: pairs with a null source *)
Lemma null_pair_unseen cf tops lops st d t :
  let U := unit_links cf tops lops in
  unit_env cf tops lops -> u_hist cf tops lops st d ->
  d_found U st [c_any cf; 0; t] = Val false /\ d_search cf U st 0 t = Val None.
Proof.
  intros U ENV HH. destruct (L_C48_null_queries_find_nothing cf tops lops st d [c_any cf; 0; t] ENV HH) as [C E].
  { cbn. auto. }
  { discriminate. }
  unfold d_found, d_count_by, d_search, d_find, d_each_by. cbn [li_count li_each U unit_links]. rewrite C, E. auto.
Qed.

Lemma null_update cf tops lops st d i t :
  let U := unit_links cf tops lops in
  unit_env cf tops lops -> u_hist cf tops lops st d -> linked U st i -> separable U st i ->
  exists st' b, u_hist cf tops lops st' d /\ is_link U st' i 0 t /\ frame U st st' i /\
    forall H (h : whandler H) x, to_flow (d_update_with U (uw_of h) i 0 t st x) =
      Val (st', fst (h x b (mkLink i 0 t)), Ok (snd (h x b (mkLink i 0 t)))).
Proof.
  intros U ENV HH LI SE.
  destruct (L_C01_update_roundtrip cf tops lops st d [i] [i; 0; t] i 0 t ENV HH LI SE eq_refl eq_refl eq_refl) as (st' & b & H' & C & L' & F).
  exists st', b. split; auto. split; auto. split; auto. intros H h x. unfold d_update_with, d_update_by_with, to_flow.
  assert (C2 : calls_once (fun H h x => li_update U H h [i] [i; 0; t] st x) st' b (mkLink i 0 t)) by exact C.
  rewrite (wadapt_once _ _ _ _ _ _ _ _ C2). cbn [obind rmap]. now rewrite uw_fst, uw_flow.
Qed.

(** UniqueValidator accepts every pair with a null source, whichever links hold it. *)
Lemma L_C36_null_source_never_seen cf tops lops st d q ch t :
  let U := unit_links cf tops lops in
  unit_env cf tops lops -> u_hist cf tops lops st d -> qget ch 1 = Val 0 -> qget ch 2 = Val t ->
  forall H (h : whandler H) x, li_update (unique_validator cf U) H h q ch st x = li_update U H h q ch st x.
Proof.
  intros U ENV HH C1 C2 H h x. cbn [unique_validator li_update]. rewrite C1, C2. cbn [obind].
  destruct (null_pair_unseen cf tops lops st d t ENV HH) as [E _]. fold U in E. now rewrite E.
Qed.
(** So two links get the same pair. *)
Lemma L_C36_null_source_doubled cf tops lops st d i j t :
  let U := unit_links cf tops lops in
  unit_env cf tops lops -> u_hist cf tops lops st d -> is_link U st j 0 t -> t <> 0 -> linked U st i -> i <> j -> separable U st i ->
  exists st' b, u_hist cf tops lops st' d /\
    calls_once (fun H h x => li_update (unique_validator cf U) H h [i] [i; 0; t] st x) st' b (mkLink i 0 t) /\
    is_link U st' i 0 t /\ is_link U st' j 0 t /\ ~ distinct_pairs U st'.
Proof.
  intros U ENV HH LJ T0 LI NE SE.
  destruct (L_C01_update_roundtrip cf tops lops st d [i] [i; 0; t] i 0 t ENV HH LI SE eq_refl eq_refl eq_refl) as (st' & b & H' & C & L' & F).
  exists st', b. split; auto. assert (LJ' : is_link U st' j 0 t). { unfold is_link. pose proof (F j (not_eq_sym NE)) as FJ. unfold U in *. rewrite FJ. exact LJ. }
  split; [|split; [auto|split; [auto|]]].
  - intros H h x. rewrite (L_C36_null_source_never_seen cf tops lops st d [i] [i; 0; t] t ENV HH eq_refl eq_refl). apply C.
  - intros D. apply NE. apply (D i j 0 t); auto. congruence.
Qed.
Lemma L_C36_null_source_nonvacuous : exists st d, u_hist ex_cf ref_tree_ops ref_list_ops st d /\
  is_link ex_U st 1 0 5 /\ linked ex_U st 2 /\ separable ex_U st 2.
Proof.
  pose (l := [Cr; Cr; Up 1 0 5]). destruct (ex_reach l) as (d & HH & _); [vm_compute; reflexivity..|]. exists (ex_st l), d. sp.
  split; [vm_compute; reflexivity|]. split; [exists 0, 0; vm_compute; reflexivity|].
  apply distinct_separable, ex_distinct; vm_compute; reflexivity.
Qed.

(** Neither do the resolvers see such pairs: they update the link and leave the holders of
    the pair alone. *)
Lemma L_C37_null_source_not_merged cf tops lops st d q ch i t :
  let U := unit_links cf tops lops in
  unit_env cf tops lops -> u_hist cf tops lops st d -> linked U st i -> separable U st i ->
  qget q 0 = Val i -> qget ch 1 = Val 0 -> qget ch 2 = Val t ->
  exists st' b, u_hist cf tops lops st' d /\ is_link U st' i 0 t /\ frame U st st' i /\
    calls_once (fun H h x => li_update (unique_resolver cf U) H h q ch st x) st' b (mkLink i 0 t).
Proof.
  intros U ENV HH LI SE Q C1 C2. destruct (null_pair_unseen cf tops lops st d t ENV HH) as [_ E]. fold U in E.
  destruct (null_update cf tops lops st d i t ENV HH LI SE) as (st' & b & G & L & F & C).
  exists st', b. split; auto. split; auto. split; auto.
  intros H h x. cbn [unique_resolver li_update]. rewrite Q, C1, C2. cbn [obind]. rewrite E. cbn [obind]. apply C.
Qed.
Lemma L_C41_null_source_not_merged cf tops lops st d q ch i t :
  let U := unit_links cf tops lops in
  unit_env cf tops lops -> u_hist cf tops lops st d -> linked U st i -> separable U st i ->
  qget q 0 = Val i -> qget ch 1 = Val 0 -> qget ch 2 = Val t ->
  exists st' b, u_hist cf tops lops st' d /\ is_link U st' i 0 t /\ frame U st st' i /\
    calls_once (fun H h x => li_update (cascade_unique_resolver cf U) H h q ch st x) st' b (mkLink i 0 t).
Proof.
  intros U ENV HH LI SE Q C1 C2. destruct (null_pair_unseen cf tops lops st d t ENV HH) as [_ E]. fold U in E.
  destruct (null_update cf tops lops st d i t ENV HH LI SE) as (st' & b & G & L & F & C).
  exists st', b. split; auto. split; auto. split; auto.
  intros H h x. cbn [cascade_unique_resolver li_update]. rewrite Q, C1, C2. cbn [obind]. rewrite E. cbn [obind]. apply C.
Qed.
Lemma L_C37_null_source_nonvacuous : exists st d, u_hist ex_cf ref_tree_ops ref_list_ops st d /\
  is_link ex_U st 1 0 5 /\ linked ex_U st 2 /\ separable ex_U st 2.
Proof. exact L_C36_null_source_nonvacuous. Qed.
Lemma L_C41_null_source_nonvacuous : exists st d, u_hist ex_cf ref_tree_ops ref_list_ops st d /\
  is_link ex_U st 1 0 5 /\ linked ex_U st 2 /\ separable ex_U st 2.
Proof. exact L_C36_null_source_nonvacuous. Qed.

(** * C41: the pair the link holds already *)
(** The link is deleted, its usages are left dangling, and the call fails. *)
Lemma L_C41_own_pair cf S (I : LinksI S) G st q ch i s t :
  good_store cf I G -> G st -> real_pair cf s t -> distinct_pairs I st -> is_link I st i s t ->
  qget q 0 = Val i -> qget ch 1 = Val s -> qget ch 2 = Val t ->
  exists st', G st' /\ no_link I st' i /\ frame I st st' i /\
    forall H (h : whandler H) x, li_update (cascade_unique_resolver cf I) H h q ch st x =
      Val (st', fst (h x (mkLink i s t) nothing), Err (NotExists i)).
Proof.
  intros GS K (S0 & SA & TA) D LI Q1 Q2 Q3.
  destruct (gs_delete_with cf I G GS st i s t K LI (distinct_separable _ _ _ D)) as (st1 & K1 & N1 & F1 & C1).
  exists st1. split; auto. split; auto. split; auto.
  intros H h x. cbn [cascade_unique_resolver li_update]. rewrite Q1, Q2, Q3. cbn [obind].
  destruct (gs_search cf I G GS st s t K S0 SA TA) as [(_ & _ & E)|(k & E & _ & LK)]; [destruct (E i LI)|].
  assert (k = i) as -> by (apply (D k i s t LK LI); congruence). rewrite E. cbn [obind].
  assert (RB : d_rebase_with cf I (uw_of h) i i st x = Val (st, x, Ok tt)).
  { unfold d_rebase_with, d_try_get_link. unfold is_link in LI. rewrite LI. cbn [obind]. now rewrite N.eqb_refl. }
  unfold then_ok at 1. rewrite RB. cbn [obind]. unfold then_ok.
  destruct (C1 H h x) as (o & ->). cbn [obind]. now apply (gs_update_with_none cf I G GS).
Qed.
Lemma L_C41_own_pair_nonvacuous : exists st,
  good_store ex_cf ex_U (fun st => exists d, u_hist ex_cf ref_tree_ops ref_list_ops st d) /\
  (exists d, u_hist ex_cf ref_tree_ops ref_list_ops st d) /\ distinct_pairs ex_U st /\
  is_link ex_U st 2 1 2 /\ is_link ex_U st 3 2 1 /\ real_pair ex_cf 1 2.
Proof.
  destruct ex3_reach as (d & HH & DP & L1 & L2 & L3). exists (ex_st ex3). split; [exact ex_good|]. split; [eauto|].
  split; [exact DP|]. split; [exact L2|]. split; [exact L3|]. unfold real_pair; cbn; lia.
Qed.

(** * C35 *)
(** A store without holes whose memory is used up panics on every create if the grown memory
    would exceed the address type, however many indices are left. *)
Lemma L_C35_near_end_panics cf tops lops st d n :
  let U := unit_links cf tops lops in
  unit_env cf tops lops -> u_hist cf tops lops st d -> (forall k, ~ hole U st k) ->
  u_count cf st [] = Val n -> n < c_iend cf -> h_reserved st <= n + 1 ->
  u_orc st 0%nat (u_len st + c_step cf) = true -> c_tmax cf < u_len st + c_step cf ->
  d_create U st = Panic /\ forall H (h : whandler H) q x, u_create cf lops h q st x = Panic.
Proof.
  intros U ENV HH NH CN NF RS OR TM. destruct (u_hist_inv cf tops lops ENV st d HH) as (a & K & D). pose proof (e_ok _ _ _ ENV) as OK. pose proof ENV as (CF & _ & LOK).
  assert (EF : a_free a = []).
  { destruct (a_free a) as [|k f] eqn:E; auto. exfalso. apply (NH k). apply (ob_hole cf _ U _ OK _ _ _ K). rewrite E. now left. }
  pose proof K as [R W].
  assert (TN : a_top a = n).
  { unfold u_count, u_get_total in CN. rewrite (u_header_ok cf _ _ R) in CN. cbn [obind] in CN.
    rewrite (ur_alloc _ _ _ R), (ur_count cf _ _ R), EF in CN. cbn [length N.of_nat] in CN.
    rewrite csub_ok in CN by lia. injection CN as CN. lia. }
  assert (P : forall H (h : whandler H) q x, u_create cf lops h q st x = Panic).
  { intros H h q x. unfold u_create. rewrite (u_header_ok cf _ _ R). cbn [obind].
    rewrite (ur_first cf _ _ R), EF, (ok_null _ CF), (ur_alloc _ _ _ R). cbn [hd N.eqb].
    destruct (N.leb_spec (c_iend cf) (a_top a)); [lia|]. unfold u_grow. rewrite (ur_alloc _ _ _ R).
    pose proof (ur_res1 _ _ _ R). rewrite csub_ok by lia. cbn [obind].
    destruct (N.leb_spec (h_reserved st - 1) (a_top a)); [|lia]. unfold u_alloc_mem. rewrite OR.
    unfold u_header. cbn [u_len]. destruct (N.ltb_spec 0 (u_len st + c_step cf)); [|lia]. cbn [obind].
    unfold ctry. destruct (N.leb_spec (u_len st + c_step cf) (c_tmax cf)); [lia|]. reflexivity. }
  split; auto. unfold d_create, d_create_by, d_create_by_with. cbn [li_create U unit_links]. rewrite P. reflexivity.
Qed.
Lemma L_C35_near_end_nonvacuous : unit_env ex_cf20 ref_tree_ops ref_list_ops /\
  let st := ex20 15 in u_count ex_cf20 st [] = Val 15 /\ 15 < c_iend ex_cf20 /\ h_reserved st <= 15 + 1 /\
    u_orc st 0%nat (u_len st + c_step ex_cf20) = true /\ c_tmax ex_cf20 < u_len st + c_step ex_cf20 /\
    u_hist ex_cf20 ref_tree_ops ref_list_ops st [].
Proof.
  destruct L_C35_create_until_full_refuted as (ENV & _). split; auto. cbn zeta.
  repeat (split; [vm_compute; try reflexivity; discriminate|]).
  assert (G : forall n, (n <= 15)%nat -> u_hist ex_cf20 ref_tree_ops ref_list_ops (ex20 n) []).
  { induction n as [|n IH]; intros LE.
    - apply hist_start. exists (fun _ _ => true). vm_compute; reflexivity.
    - eapply (hist_create _ _ _ _ _ (ex20 n) [] unit cont [] tt _ tt (Ok Continue)); [apply IH; lia|].
      clear IH. do 15 (destruct n as [|n]; [vm_compute; reflexivity|]). lia. }
  apply G. lia.
Qed.
