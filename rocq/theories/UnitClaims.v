(** Properties of the single-memory store, stated on its histories (proofs; the
    statements are repeated in PropUnit.v and PropDefaults.v). *)
From Coq Require Import NArith List Bool Lia Permutation Sorted.
From Verif Require Import Base Trees Lists Spec Iface UnitModel UnitInv UnitOps UnitLinks
  Doublets Obs DoubletsOK Hist Claims TreeImpl UnitHist.
Import ListNotations.
Open Scope N_scope.

Section Inst.
  Variables (cf : cfg) (tops : tree_ops) (lops : list_ops).
  Hypothesis ENV : unit_env cf tops lops.
  Lemma i_spq st a q : uh cf tops lops st a -> (length q <= 3)%nat ->
    (length q = 2%nat -> 2 * c_iend cf <= c_tmax cf) -> sp_query (unit_spec cf) a q.
  Proof. intros [K _]. now apply (e_spq cf tops lops ENV st). Qed.
  Lemma i_spc (RM : cfg_room cf) st a : uh cf tops lops st a -> sp_create (unit_spec cf) a.
  Proof. intros [K _]. now apply (e_spc cf tops lops ENV st). Qed.
End Inst.

(** split off a goal closed by [auto], leaving the rest untouched *)
Ltac sp := split; [solve [auto]|].
Ltac conj := repeat match goal with |- _ /\ _ => split end.

Ltac uopen a K D :=
  match goal with
  | ENV : unit_env ?cf ?tops ?lops, HH : u_hist ?cf ?tops ?lops ?st ?d |- _ =>
      destruct (uh_hist cf tops lops ENV st d HH) as (a & K & D)
  end.

(** * C01 *)
Lemma L_C01_update_roundtrip cf tops lops st d q ch i s t :
  let U := unit_links cf tops lops in
  unit_env cf tops lops -> u_hist cf tops lops st d ->
  linked U st i -> separable U st i ->
  qget q 0 = Val i -> qget ch 1 = Val s -> qget ch 2 = Val t ->
  exists st' before, u_hist cf tops lops st' d /\
    calls_once (fun H h x => u_update cf tops h q ch st x) st' before (mkLink i s t) /\
    is_link U st' i s t /\ frame U st st' i.
Proof.
  intros U ENV HH LI SE Q1 Q2 Q3. uopen a K D.
  destruct (g_update cf _ U _ (uh_links_ok _ _ _ ENV) (e_spu cf) st a q ch i s t K LI SE Q1 Q2 Q3)
    as (st' & b & _ & C & L & F).
  exists st', b. split; auto.
  apply (hist_update _ _ _ _ _ st d unit cont q ch i s t tt st' tt (Ok Continue)); auto; [now right|apply C].
Qed.
Lemma L_C01_nonvacuous : exists st d,
  u_hist ex_cf ref_tree_ops ref_list_ops st d /\ linked ex_U st 3 /\ separable ex_U st 3 /\
  is_link ex_U st 1 1 1 /\ is_link ex_U st 2 1 2 /\ is_link ex_U st 4 1 2.
Proof.
  destruct ex4d_reach as (d & HH & (S1 & S3) & L1 & L2 & L3 & L4). exists (ex_st ex4d), d.
  sp. split; [exists 2, 1; auto|]. auto.
Qed.

(** * C02 *)
Lemma L_C02_count_and_each_all cf tops lops st d q :
  let U := unit_links cf tops lops in let any := c_any cf in
  unit_env cf tops lops -> u_hist cf tops lops st d ->
  q = [] \/ q = [any] \/ (q = [any; any] /\ 2 * c_iend cf <= c_tmax cf) \/ q = [any; any; any] ->
  exists L, all_links U st L /\ u_count cf st q = Val (N.of_nat (length L)) /\
    forall H (h : rhandler H) x, u_each cf h q st x = Val (run_handler h L x).
Proof.
  intros U any ENV HH Q. uopen a K D.
  destruct (g_all cf _ U _ (uh_links_ok _ _ _ ENV) (i_spq _ _ _ ENV) st a q K) as (L & A & V1 & V2).
  - intros L2. destruct Q as [->|[->|[[_ DB]| ->]]]; try discriminate. exact DB.
  - destruct Q as [->|[->|[[-> _]| ->]]]; cbn; now rewrite ?N.eqb_refl.
  - exists L. auto.
Qed.
Lemma L_C02_nonvacuous : exists st d,
  u_hist ex_cf ref_tree_ops ref_list_ops st d /\
  all_links ex_U st [mkLink 2 1 2; mkLink 3 2 1] /\ u_count ex_cf st [] = Val 2.
Proof.
  destruct (ex_reach ex3h) as (d & HH & K); [vm_compute; reflexivity..|].
  exists (ex_st ex3h), d. sp. split; [|vm_compute; reflexivity].
  pose proof (ob_all ex_cf _ _ _ (e_ok _ _ _ ex_env) _ _ K) as A.
  assert (E : alinks (arun a_empty ex3h) = [mkLink 2 1 2; mkLink 3 2 1]) by (vm_compute; reflexivity).
  rewrite E in A. exact A.
Qed.

(** * C03 *)
Lemma L_C03_each_visits_matches cf tops lops st d q :
  let U := unit_links cf tops lops in
  unit_env cf tops lops -> u_hist cf tops lops st d ->
  (length q <= 3)%nat -> (length q = 2%nat -> 2 * c_iend cf <= c_tmax cf) ->
  ~ null_query (c_any cf) q -> ~ end_query (c_any cf) q ->
  (pair_query (c_any cf) q -> one_match (c_any cf) U st q) ->
  exists L, NoDup L /\
    (forall l, In l L <-> u_get_link cf st (l_index l) = Val (Some l) /\ query_match (c_any cf) q l) /\
    forall H (h : rhandler H) x, u_each cf h q st x = Val (run_handler h L x).
Proof.
  intros U ENV HH LQ DB NQ EQ PQ. uopen a K D.
  destruct (g_match cf (e_cf _ _ _ ENV) _ U _ (uh_links_ok _ _ _ ENV) (i_spq _ _ _ ENV) st a q K LQ DB NQ EQ PQ)
    as (L & [V1 V2] & ND & M).
  exists L. auto.
Qed.
Lemma L_C03_nonvacuous : exists st d,
  u_hist ex_cf ref_tree_ops ref_list_ops st d /\ distinct_pairs ex_U st /\
  ~ null_query 200 [200; 1; 200] /\ ~ end_query 200 [200; 1; 200] /\
  u_each ex_cf (fun v l => (v ++ [l_index l], Continue)) [200; 1; 200] st [] = Val ([1; 2], Continue).
Proof.
  destruct ex3_reach as (d & HH & DP & _). exists (ex_st ex3), d. sp. sp.
  split; [cbn; intuition discriminate|]. split; [cbn; tauto|]. vm_compute; reflexivity.
Qed.

(** A query for a pair shows one of the links with that pair, also where several have it. *)
Lemma L_C03_each_visits_one_of_pair cf tops lops st d s t :
  let U := unit_links cf tops lops in
  unit_env cf tops lops -> u_hist cf tops lops st d -> s <> 0 -> s <> c_any cf -> t <> c_any cf ->
  (forall i, ~ is_link U st i s t) /\
    (forall H (h : rhandler H) x, u_each cf h [c_any cf; s; t] st x = Val (x, Continue)) \/
  exists i, is_link U st i s t /\
    forall H (h : rhandler H) x, u_each cf h [c_any cf; s; t] st x = Val (h x (mkLink i s t)).
Proof.
  intros U ENV HH S0 SA TA. uopen a K D. pose proof (uh_links_ok _ _ _ ENV) as OK.
  destruct (g_visits cf _ U _ OK (i_spq _ _ _ ENV) st a [c_any cf; s; t] K) as (L & [V1 V2] & VO); [cbn; lia|discriminate|].
  destruct (g_pair cf (e_cf _ _ _ ENV) _ U _ OK st a s t L K S0 SA TA VO) as [[-> M]|(i & -> & M)].
  - left. auto.
  - right. exists i. split; [exact M|]. intros H h x. pose proof (V1 H h x) as E. cbn [run_handler] in E.
    destruct (h x (mkLink i s t)) as [x' []]; exact E.
Qed.
Lemma L_C03_one_of_pair_nonvacuous : exists st d,
  u_hist ex_cf ref_tree_ops ref_list_ops st d /\ is_link ex_U st 2 1 2 /\ is_link ex_U st 4 1 2 /\
  (exists i, u_each ex_cf (fun v l => (v ++ [l], Continue)) [200; 1; 2] st [] = Val ([mkLink i 1 2], Continue)) /\
  u_each ex_cf (fun v l => (v ++ [l], Continue)) [200; 2; 2] st [] = Val ([], Continue).
Proof.
  destruct ex4d_reach as (d & HH & _ & _ & L2 & _ & L4). exists (ex_st ex4d), d. sp. sp. sp.
  split; [eexists|]; vm_compute; reflexivity.
Qed.

Lemma L_C03_each_visits_either_end cf tops lops st d v :
  let U := unit_links cf tops lops in
  unit_env cf tops lops -> u_hist cf tops lops st d -> 2 * c_iend cf <= c_tmax cf ->
  v <> 0 -> v <> c_any cf ->
  exists L1 L2, NoDup L1 /\ NoDup L2 /\
    (forall l, In l L1 <-> u_get_link cf st (l_index l) = Val (Some l) /\ l_source l = v) /\
    (forall l, In l L2 <-> u_get_link cf st (l_index l) = Val (Some l) /\ l_target l = v) /\
    forall H (h : rhandler H) x, u_each cf h [c_any cf; v] st x = Val (run_handler h (L1 ++ L2) x).
Proof.
  intros U ENV HH DB V0 VA. uopen a K D.
  destruct (g_end cf _ U _ (uh_links_ok _ _ _ ENV) (i_spq _ _ _ ENV) st a v K DB V0 VA)
    as (L1 & L2 & [V1 _] & N1 & N2 & M1 & M2).
  exists L1, L2. auto.
Qed.
Lemma L_C03_either_end_nonvacuous : exists st d,
  u_hist ex_cf ref_tree_ops ref_list_ops st d /\ 2 * c_iend ex_cf <= c_tmax ex_cf /\
  u_each ex_cf (fun v l => (v ++ [l_index l], Continue)) [200; 1] st [] = Val ([1; 2; 1; 3], Continue).
Proof.
  destruct ex3_reach as (d & HH & _). exists (ex_st ex3), d. sp. split; [cbn; lia|].
  vm_compute; reflexivity.
Qed.

(** * C04 *)
Lemma L_C04_count_equals_visits cf tops lops st d q :
  unit_env cf tops lops -> u_hist cf tops lops st d ->
  (length q <= 3)%nat -> (length q = 2%nat -> 2 * c_iend cf <= c_tmax cf) ->
  exists n, u_count cf st q = Val n /\
    u_each cf (fun k _ => (k + 1, Continue)) q st 0 = Val (n, Continue).
Proof.
  intros ENV HH LQ DB. uopen a K D. set (U := unit_links cf tops lops).
  destruct (g_visits cf _ U _ (uh_links_ok _ _ _ ENV) (i_spq _ _ _ ENV) st a q K LQ DB) as (L & [V1 V2] & _).
  exists (N.of_nat (length L)). split; [exact V2|].
  pose proof (V1 N (fun k _ => (k + 1, Continue)) 0) as E. cbn [U unit_links li_each] in E. rewrite E.
  assert (G : forall l k, run_handler (fun k (_ : link) => (k + 1, Continue)) l k = (k + N.of_nat (length l), Continue)).
  { clear. induction l as [|x l IH]; intros k; cbn [run_handler length]; [now rewrite N.add_0_r|].
    rewrite IH. f_equal. lia. }
  rewrite G. reflexivity.
Qed.
Lemma L_C04_nonvacuous : exists st d,
  u_hist ex_cf ref_tree_ops ref_list_ops st d /\ u_count ex_cf st [200; 1] = Val 4 /\
  u_count ex_cf st [200; 200; 2] = Val 1 /\ u_count ex_cf st [3; 2] = Val 1.
Proof.
  destruct ex3_reach as (d & HH & _). exists (ex_st ex3), d. split; [exact HH|].
  conj; vm_compute; reflexivity.
Qed.

(** * C05 *)
Lemma L_C05_search_iff cf tops lops st d s t :
  let U := unit_links cf tops lops in
  unit_env cf tops lops -> u_hist cf tops lops st d ->
  s <> 0 -> s <> c_any cf -> t <> c_any cf ->
  (d_search cf U st s t = Val None /\ forall i, ~ is_link U st i s t) \/
  (exists i, d_search cf U st s t = Val (Some i) /\ is_link U st i s t).
Proof.
  intros U ENV HH S0 SA TA. uopen a K D.
  exact (g_search cf _ U _ (uh_links_ok _ _ _ ENV) (i_spq _ _ _ ENV) st a s t K S0 SA TA).
Qed.
Lemma L_C05_search_or cf tops lops st d s t z :
  let U := unit_links cf tops lops in
  unit_env cf tops lops -> u_hist cf tops lops st d ->
  s <> 0 -> s <> c_any cf -> t <> c_any cf ->
  exists i, d_search_or cf U st s t z = Val i /\
    (is_link U st i s t \/ i = z /\ forall j, ~ is_link U st j s t).
Proof.
  intros U ENV HH S0 SA TA. unfold d_search_or.
  destruct (L_C05_search_iff cf tops lops st d s t ENV HH S0 SA TA) as [[E N]|(i & E & L)]; fold U in E; rewrite E; cbn [obind]; eauto.
Qed.
Lemma L_C05_nonvacuous : exists st d,
  u_hist ex_cf ref_tree_ops ref_list_ops st d /\ d_search ex_cf ex_U st 2 1 = Val (Some 3) /\
  d_search ex_cf ex_U st 2 2 = Val None /\ d_search_or ex_cf ex_U st 2 1 9 = Val 3 /\ d_search_or ex_cf ex_U st 2 2 9 = Val 9.
Proof.
  destruct ex3_reach as (d & HH & _). exists (ex_st ex3), d. split; [exact HH|].
  conj; vm_compute; reflexivity.
Qed.

(** What create can do, without any assumption about room. *)
Lemma u_create_obs cf tops lops st d a q : unit_env cf tops lops -> u_hist cf tops lops st d -> uinv cf st a ->
  let U := unit_links cf tops lops in
  (~ range_full cf U st /\ (forall k, ~ hole U st k) /\ u_orc st 0%nat (u_len st + c_step cf) = true /\
     c_tmax cf < u_len st + c_step cf /\ forall H (h : whandler H) x, u_create cf lops h q st x = Panic) \/
  (range_full cf U st /\ fails_with (fun H h x => u_create cf lops h q st x) st (LimitReached (c_iend cf))) \/
  (~ range_full cf U st /\ (forall k, ~ hole U st k) /\ u_orc st 0%nat (u_len st + c_step cf) = false /\
     exists st', u_hist cf tops lops st' d /\ uinv cf st' a /\ same_links U st st' /\
     fails_with (fun H h x => u_create cf lops h q st x) st' AllocFailed) \/
  (~ range_full cf U st /\ exists st', u_hist cf tops lops st' d /\ creates cf U st st' (a_next a) /\
     calls_once (fun H h x => u_create cf lops h q st x) st' nothing (mkLink (a_next a) 0 0)).
Proof.
  intros ENV HH K U. pose proof (e_ok _ _ _ ENV) as OK. pose proof ENV as (CF & _ & LOK).
  assert (FE : range_full cf U st <-> a_full cf a) by exact (ob_full cf _ U _ OK _ _ K). rewrite FE.
  assert (NH : a_free a = [] -> forall k, ~ hole U st k).
  { intros E k C. apply (ob_hole cf _ U _ OK _ _ _ K) in C. rewrite E in C. exact C. }
  destruct (u_create_ok cf CF lops LOK st a q K) as [(N1 & N2 & _ & N3 & N4 & _ & P)|[[F1 F]|[(N1 & N2 & N3 & K' & F)|(N1 & st' & K' & C)]]].
  - left. auto 10.
  - right; left. auto.
  - right; right; left. split; auto. split; auto. split; auto. exists (u_alloc_failed st).
    split; [eapply (hist_create _ _ _ _ _ st d unit cont q tt); eauto; apply F|]. split; auto. split; auto.
    intros j. now apply (ob_get cf _ U _ OK _ _ _ _ K K').
  - right; right; right. split; auto. exists st'.
    split; [eapply (hist_create _ _ _ _ _ st d unit cont q tt); eauto; apply C|]. split; auto.
    eapply (ob_creates cf _ U _ OK); eauto. intros. eapply e_spq; eauto.
Qed.

(** * C06, C07, C15 *)
Lemma L_C06_create_fresh cf tops lops st d H (h : whandler H) q x st' x' f :
  let U := unit_links cf tops lops in
  unit_env cf tops lops -> u_hist cf tops lops st d ->
  u_create cf lops h q st x = Val (st', x', Ok f) ->
  u_hist cf tops lops st' d /\
  exists i, creates cf U st st' i /\
    calls_once (fun H h x => u_create cf lops h q st x) st' nothing (mkLink i 0 0).
Proof.
  intros U ENV HH E. destruct (u_hist_inv cf tops lops ENV st d HH) as (a & K & D).
  destruct (u_create_obs cf tops lops st d a q ENV HH K) as [(_ & _ & _ & _ & P)|[[_ F]|[(_ & _ & _ & st2 & _ & _ & _ & F)|(_ & st2 & H2 & C2 & C)]]].
  - rewrite P in E. discriminate.
  - rewrite F in E. discriminate.
  - rewrite F in E. discriminate.
  - assert (st2 = st') as <- by (rewrite C in E; congruence). split; auto. exists (a_next a). auto.
Qed.
Lemma L_C06_nonvacuous : exists st d st',
  u_hist ex_cf ref_tree_ops ref_list_ops st d /\ is_link ex_U st 2 1 2 /\
  u_create ex_cf ref_list_ops (fun _ _ l => (l, Continue)) [] st nothing = Val (st', mkLink 1 0 0, Ok Continue).
Proof.
  destruct ex3h_reach as (d & HH & _ & _ & L2 & _). exists (ex_st ex3h), d.
  destruct (u_create ex_cf ref_list_ops (fun _ _ l => (l, Continue)) [] (ex_st ex3h) nothing) as [[[st' x] r]| | |] eqn:E.
  - exists st'. sp. sp. rewrite <- E. vm_compute in E. injection E as <- <- <-. vm_compute. reflexivity.
  - vm_compute in E. discriminate.
  - vm_compute in E. discriminate.
  - vm_compute in E. discriminate.
Qed.

Lemma L_C07_index_policy cf tops lops st d H (h : whandler H) q x st' x' f i :
  let U := unit_links cf tops lops in
  unit_env cf tops lops -> u_hist cf tops lops st d ->
  u_create cf lops h q st x = Val (st', x', Ok f) -> no_link U st i -> linked U st' i ->
  (exists later earlier, d = later ++ i :: earlier /\ hole U st i /\ (forall k, In k later -> ~ hole U st k)) \/
  ((forall k, ~ hole U st k) /\ (forall k, linked U st k -> k < i) /\ (i = 1 \/ linked U st (i - 1))).
Proof.
  intros U ENV HH E NL LK. destruct (u_hist_inv cf tops lops ENV st d HH) as (a & K & D).
  destruct (u_create_obs cf tops lops st d a q ENV HH K) as [(_ & _ & _ & _ & P)|[[_ F]|[(_ & _ & _ & st2 & _ & _ & _ & F)|(_ & st2 & H2 & C2 & C)]]].
  - rewrite P in E. discriminate.
  - rewrite F in E. discriminate.
  - rewrite F in E. discriminate.
  - assert (st2 = st') as <- by (rewrite C in E; congruence).
    assert (i = a_next a) as ->.
    { destruct (N.eq_dec i (a_next a)) as [|NE]; auto. exfalso. destruct C2 as (_ & _ & _ & FR & _).
      destruct LK as (s & t & LK). unfold is_link, no_link in *. pose proof (FR i NE : li_get U st2 i = li_get U st i). congruence. }
    exact (g_next cf _ U _ (e_ok _ _ _ ENV) st a d K D).
Qed.
Lemma L_C07_nonvacuous : exists st d,
  u_hist ex_cf ref_tree_ops ref_list_ops st d /\
  (exists st', d_create ex_U st = Val (st', Ok 3)) /\ hole ex_U st 3 /\ hole ex_U st 1.
Proof.
  set (l := [Cr; Cr; Cr; Cr; De 1; De 3]).
  destruct (ex_reach l) as (d & HH & K); [vm_compute; reflexivity..|].
  exists (ex_st l), d. sp. split.
  - destruct (d_create ex_U (ex_st l)) as [[st' r]| | |] eqn:E; try (vm_compute in E; discriminate).
    exists st'. rewrite <- E. vm_compute in E. injection E as <- <-. vm_compute. reflexivity.
  - pose proof (e_ok _ _ _ ex_env) as OK.
    split; apply (ob_hole ex_cf _ _ _ OK _ _ _ K); vm_compute; auto.
Qed.

(** * C08 *)
Lemma L_C08_delete_removes_one cf tops lops st d q i s t :
  let U := unit_links cf tops lops in
  unit_env cf tops lops -> u_hist cf tops lops st d ->
  is_link U st i s t -> separable U st i -> qget q 0 = Val i ->
  exists st', u_hist cf tops lops st' (i :: d) /\
    calls_once (fun H h x => u_delete cf tops lops h q st x) st' (mkLink i s t) nothing /\
    no_link U st' i /\ frame U st st' i /\
    exists n, u_count cf st [] = Val (n + 1) /\ u_count cf st' [] = Val n.
Proof.
  intros U ENV HH LI SE Q. uopen a K D.
  destruct (g_delete cf _ U _ (uh_links_ok _ _ _ ENV) (e_spd cf) (i_spq _ _ _ ENV) st a q i s t K LI SE Q)
    as (st' & _ & C & L & F & N).
  exists st'. split; auto.
  apply (hist_delete _ _ _ _ _ st d unit cont q i tt st' tt Continue); auto; [now right|apply C].
Qed.
Lemma L_C08_nonvacuous : exists st d,
  u_hist ex_cf ref_tree_ops ref_list_ops st d /\ is_link ex_U st 1 1 1 /\ separable ex_U st 1 /\
  is_link ex_U st 2 1 2 /\ is_link ex_U st 3 2 1 /\ is_link ex_U st 4 1 2.
Proof.
  destruct ex4d_reach as (d & HH & (S1 & S3) & L1 & L2 & L3 & L4). exists (ex_st ex4d), d. sp. auto.
Qed.

(** * C09 *)
Lemma L_C09_missing_links cf tops lops st d q ch i s t :
  let U := unit_links cf tops lops in
  unit_env cf tops lops -> u_hist cf tops lops st d -> no_link U st i ->
  qget q 0 = Val i -> qget ch 1 = Val s -> qget ch 2 = Val t ->
  fails_with (fun H h x => u_update cf tops h q ch st x) st (NotExists i) /\
  fails_with (fun H h x => u_delete cf tops lops h q st x) st (NotExists i).
Proof.
  intros U ENV HH NL Q1 Q2 Q3. uopen a K D. pose proof (uh_links_ok _ _ _ ENV) as OK. split.
  - exact (g_update_none cf _ U _ OK st a q ch i s t K NL Q1 Q2 Q3).
  - exact (g_delete_none cf _ U _ OK st a q i K NL Q1).
Qed.
Lemma L_C09_nonvacuous : exists st d,
  u_hist ex_cf ref_tree_ops ref_list_ops st d /\ no_link ex_U st 1 /\ no_link ex_U st 7 /\ is_link ex_U st 3 2 1.
Proof.
  destruct ex3h_reach as (d & HH & _ & L1 & _ & L3). exists (ex_st ex3h), d. sp. sp.
  sp. vm_compute; reflexivity.
Qed.

(** * C10 *)
Lemma L_C10_limit_reached_iff cf tops lops st d H (h : whandler H) q x :
  let U := unit_links cf tops lops in
  unit_env cf tops lops -> u_hist cf tops lops st d ->
  (range_full cf U st <-> exists st' x' n, u_create cf lops h q st x = Val (st', x', Err (LimitReached n))) /\
  (range_full cf U st -> u_create cf lops h q st x = Val (st, x, Err (LimitReached (c_iend cf)))).
Proof.
  intros U ENV HH. destruct (u_hist_inv cf tops lops ENV st d HH) as (a & K & D).
  destruct (u_create_obs cf tops lops st d a q ENV HH K) as [(NF & _ & _ & _ & P)|[[RF F]|[(NF & _ & _ & st2 & _ & _ & _ & F)|(NF & st2 & H2 & C2 & C)]]].
  - split; [|intros RF; contradiction]. split; [contradiction|]. intros (st' & x' & n & E). rewrite P in E. discriminate.
  - pose proof (F H h x) as F'. cbv beta in F'. rewrite F'. split; auto. split; auto. intros _. eauto.
  - split; [|intros RF; contradiction]. split; [contradiction|]. intros (st' & x' & n & E). rewrite F in E. discriminate.
  - split; [|intros RF; contradiction]. split; [contradiction|]. intros (st' & x' & n & E). rewrite C in E. discriminate.
Qed.
(** a configuration with an internal range of two indices *)
Definition ex_cf2 : cfg := mkCfg 1000 8 4 0 1 2 0 200 1 2 None.
Lemma L_C10_nonvacuous : unit_env ex_cf2 ref_tree_ops ref_list_ops /\
  exists st, u_hist ex_cf2 ref_tree_ops ref_list_ops st [] /\
    u_create ex_cf2 ref_list_ops cont [] st tt = Val (st, tt, Err (LimitReached 2)).
Proof.
  split.
  { split; [|split; [exact ref_tree_ops_ok|exact ref_list_ops_ok]]. constructor; cbn; try lia; auto. discriminate. }
  set (U := unit_links ex_cf2 ref_tree_ops ref_list_ops).
  set (st0 := match u_open ex_cf2 (u_blank (fun _ _ => true)) with Val (Ok st) => st | _ => u_blank (fun _ _ => true) end).
  set (nx := fun st => match u_create ex_cf2 ref_list_ops cont [] st tt with Val (st', _, _) => st' | _ => st end).
  exists (nx (nx st0)). split; [|vm_compute; reflexivity].
  apply (hist_create _ _ _ _ _ (nx st0) [] unit cont [] tt _ tt (Ok Continue)); [|vm_compute; reflexivity].
  apply (hist_create _ _ _ _ _ st0 [] unit cont [] tt _ tt (Ok Continue)); [|vm_compute; reflexivity].
  apply hist_start. exists (fun _ _ => true). vm_compute; reflexivity.
Qed.

(** * C11 *)
Lemma L_C11_no_panic cf tops lops st d :
  let U := unit_links cf tops lops in
  unit_env cf tops lops -> cfg_room cf -> u_hist cf tops lops st d ->
  (forall i, returns (u_get_link cf st i)) /\
  (forall q, (length q <= 3)%nat -> returns (u_count cf st q)) /\
  (forall H (h : rhandler H) q x, (length q <= 3)%nat -> returns (u_each cf h q st x)) /\
  (forall H (h : whandler H) q x, returns (u_create cf lops h q st x)) /\
  (forall H (h : whandler H) q ch x i s t, u_okc cf tops lops st i ->
     qget q 0 = Val i -> qget ch 1 = Val s -> qget ch 2 = Val t -> returns (u_update cf tops h q ch st x)) /\
  (forall H (h : whandler H) q x i, u_okc cf tops lops st i ->
     qget q 0 = Val i -> returns (u_delete cf tops lops h q st x)).
Proof.
  intros U ENV RM HH. uopen a K D. pose proof (uh_links_ok _ _ _ ENV) as OK. pose proof (room_dbl _ RM) as DB.
  assert (LK : forall i, no_link U st i \/ linked U st i).
  { intros i. rewrite (ob_none cf _ U _ OK _ _ _ K), (ob_linked cf _ U _ OK _ _ _ K).
    destruct (a_map a i); [right; discriminate|auto]. }
  split; [|split; [|split; [|split; [|split]]]].
  - intros i. pose proof (lo_get _ _ _ _ OK _ _ i K) as E. cbn in E. rewrite E. eexists; reflexivity.
  - intros q LQ. destruct (L_C04_count_equals_visits cf tops lops st d q ENV HH LQ (fun _ => DB)) as (n & E & _). eexists; eauto.
  - intros H h q x LQ.
    destruct (g_visits cf _ U _ OK (i_spq _ _ _ ENV) st a q K LQ (fun _ => DB)) as (L & [V1 _] & _).
    specialize (V1 H h x). cbn in V1. rewrite V1. eexists; reflexivity.
  - intros H h q x. destruct (lo_create _ _ _ _ OK _ _ q K (i_spc _ _ _ ENV RM _ _ K)) as [[_ F]|[(_ & _ & st' & _ & F)|(_ & st' & _ & F)]];
      specialize (F H h x); cbn in F; rewrite F; eexists; reflexivity.
  - intros H h q ch x i s t C Q1 Q2 Q3. destruct (LK i) as [NL|LI].
    + pose proof (g_update_none cf _ U _ OK st a q ch i s t K NL Q1 Q2 Q3 H h x) as F. cbn in F. rewrite F. eexists; reflexivity.
    + destruct C as [NL|SE].
      { apply (ob_none cf _ U _ OK _ _ _ K) in NL. apply (ob_linked cf _ U _ OK _ _ _ K) in LI. contradiction. }
      destruct (g_update cf _ U _ OK (e_spu cf) st a q ch i s t K LI SE Q1 Q2 Q3) as (st' & b & _ & F & _).
      specialize (F H h x). cbn in F. rewrite F. eexists; reflexivity.
  - intros H h q x i C Q. destruct (LK i) as [NL|LI].
    + pose proof (g_delete_none cf _ U _ OK st a q i K NL Q H h x) as F. cbn in F. rewrite F. eexists; reflexivity.
    + destruct C as [NL|SE].
      { apply (ob_none cf _ U _ OK _ _ _ K) in NL. apply (ob_linked cf _ U _ OK _ _ _ K) in LI. contradiction. }
      destruct LI as (s & t & LI).
      destruct (g_delete cf _ U _ OK (e_spd cf) (i_spq _ _ _ ENV) st a q i s t K LI SE Q) as (st' & _ & F & _).
      specialize (F H h x). cbn in F. rewrite F. eexists; reflexivity.
Qed.
Lemma L_C11_nonvacuous : cfg_room ex_cf /\ exists st d, u_hist ex_cf ref_tree_ops ref_list_ops st d /\
  u_okc ex_cf ref_tree_ops ref_list_ops st 2 /\ is_link ex_U st 2 1 2.
Proof.
  split; [exact ex_cf_room|]. destruct ex3h_reach as (d & HH & DP & _ & L2 & _).
  exists (ex_st ex3h), d. sp. split; [right; now apply distinct_separable|exact L2].
Qed.

(** * C12 *)
Lemma L_C12_delete_everything cf tops lops st d l :
  let U := unit_links cf tops lops in
  unit_env cf tops lops -> cfg_room cf -> u_hist cf tops lops st d ->
  distinct_pairs U st -> NoDup l -> (forall i, In i l <-> linked U st i) ->
  exists st', run_deletes U l st = Val (st', Ok tt) /\ (exists d', u_hist cf tops lops st' d') /\
    (forall i, no_link U st' i) /\ u_count cf st' [] = Val 0 /\
    forall n, exists st2 r, run_creates U n st' = Val (st2, r) /\
      match r with
      | Ok l => l = map N.of_nat (seq 1 n)
      | Err e => e = AllocFailed \/ (e = LimitReached (c_iend cf) /\ c_iend cf < N.of_nat n)
      end.
Proof.
  intros U ENV RM HH DP ND IN. uopen a K D.
  destruct (g_delete_everything cf _ U _ (uh_links_ok _ _ _ ENV) (e_spd cf) (i_spc _ _ _ ENV RM) (i_spq _ _ _ ENV)
              st a l K DP ND IN) as (st' & E & [_ HH'] & N & C & G).
  exists st'. auto.
Qed.
Lemma L_C12_nonvacuous : exists st d,
  u_hist ex_cf ref_tree_ops ref_list_ops st d /\ distinct_pairs ex_U st /\ NoDup [2; 3; 1] /\
  (forall i, In i [2; 3; 1] <-> linked ex_U st i) /\
  match run_deletes ex_U [2; 3; 1] st with
  | Val (st', Ok _) => match run_creates ex_U 4 st' with Val (_, r) => r = Ok [1; 2; 3; 4] | _ => False end
  | _ => False
  end.
Proof.
  destruct (ex_reach ex3) as (d & HH & K); [vm_compute; reflexivity..|].
  destruct ex3_reach as (_ & _ & DP & _). exists (ex_st ex3), d. sp. sp.
  split; [repeat constructor; cbn; intuition discriminate|]. split; [|vm_compute; reflexivity].
  intros i. rewrite (ob_linked ex_cf _ _ _ (e_ok _ _ _ ex_env) _ _ _ K).
  rewrite (wf_dom _ (lo_wf _ _ _ _ (e_ok _ _ _ ex_env) _ _ K)). vm_compute (a_top _). vm_compute (a_free _).
  cbn [In]. lia.
Qed.

(** * C13 *)
Lemma L_C13_reopen_partial cf tops lops st d orc :
  let U := unit_links cf tops lops in
  unit_env cf tops lops -> u_hist cf tops lops st d ->
  (forall i, linked U st i -> i < c_step cf) -> c_step cf - 1 <= c_tmax cf ->
  orc 0%nat (c_page cf) = true -> orc 1%nat (c_step cf) = true ->
  exists st', u_open cf (u_persist st orc) = Val (Ok st') /\ u_hist cf tops lops st' d /\
    same_links U st st' /\ u_count cf st' [] = u_count cf st [].
Proof.
  intros U ENV HH LT TM O1 O2. destruct (u_hist_inv cf tops lops ENV st d HH) as (a & K & D).
  pose proof (e_ok _ _ _ ENV) as OK. pose proof (e_cf _ _ _ ENV) as CF.
  assert (TL : a_top a < c_step cf).
  { destruct (wf_top _ (lo_wf _ _ _ _ OK _ _ K)) as [T|T]; [pose proof (ok_step _ CF); lia|].
    apply LT. now apply (ob_linked cf _ U _ OK _ _ _ K). }
  destruct (u_open_ok cf CF (u_persist st orc) st a) as (st' & E & K' & _); auto.
  { repeat split; auto. }
  exists st'. split; auto. split; [eapply hist_reopen; eauto; split; eauto|].
  split; [intros j; now apply (ob_get cf _ U _ OK _ _ _ _ K K')|].
  assert (SQ : forall st a q, uinv cf st a -> (length q <= 3)%nat -> (length q = 2%nat -> 2 * c_iend cf <= c_tmax cf) ->
    sp_query (unit_spec cf) a q) by (intros; eapply e_spq; eauto).
  pose proof (count_R cf _ U _ OK SQ _ _ K) as C1. pose proof (count_R cf _ U _ OK SQ _ _ K') as C2.
  cbn [U unit_links li_count] in C1, C2. rewrite C1. exact C2.
Qed.
Lemma L_C13_partial_nonvacuous : exists st d, u_hist ex_cf ref_tree_ops ref_list_ops st d /\
  (forall i, linked ex_U st i -> i < c_step ex_cf) /\ hole ex_U st 1 /\ is_link ex_U st 3 2 1 /\
  c_step ex_cf - 1 <= c_tmax ex_cf.
Proof.
  destruct (ex_reach ex3h) as (d & HH & K); [vm_compute; reflexivity..|].
  destruct ex3h_reach as (_ & _ & _ & _ & _ & L3). pose proof (e_ok _ _ _ ex_env) as OK.
  exists (ex_st ex3h), d. sp. split.
  - intros i LI. apply (ob_top ex_cf _ _ _ OK _ _ K) in LI. vm_compute (a_top _) in LI. cbn. lia.
  - split; [apply (ob_hole ex_cf _ _ _ OK _ _ _ K); vm_compute; auto|]. sp. cbn. lia.
Qed.

(** A store with as many links as the step size (here 8) cannot be read after reopening. *)
Definition ex8 : list cmd := [Cr; Cr; Cr; Cr; Cr; Cr; Cr; Cr].
Lemma L_C13_reopen_refuted : exists st d st',
  u_hist ex_cf ref_tree_ops ref_list_ops st d /\ is_link ex_U st 8 0 0 /\
  u_open ex_cf (u_persist st (fun _ _ => true)) = Val (Ok st') /\
  u_get_link ex_cf st' 8 = UB /\
  u_each ex_cf (fun n _ => (n + 1, Continue)) [] st' 0 = UB.
Proof.
  destruct (ex_reach ex8) as (d & HH & K); [vm_compute; reflexivity..|].
  exists (ex_st ex8), d.
  exists (match u_open ex_cf (u_persist (ex_st ex8) (fun _ _ => true)) with Val (Ok s) => s | _ => ex_start end).
  sp. split; [vm_compute; reflexivity|]. split; [vm_compute; reflexivity|].
  split; vm_compute; reflexivity.
Qed.

(** This is so for every store whose highest link has reached the step size. *)
Lemma L_C13_reopen_always_lost cf tops lops st d top orc st' :
  let U := unit_links cf tops lops in
  unit_env cf tops lops -> u_hist cf tops lops st d ->
  linked U st top -> (forall i, linked U st i -> i <= top) -> c_step cf <= top ->
  u_open cf (u_persist st orc) = Val (Ok st') ->
  u_get_link cf st' top = UB /\
  forall H (h : rhandler H) x, (forall y l, snd (h y l) = Continue) -> u_each cf h [] st' x = UB.
Proof.
  intros U ENV HH LT LE ST E. destruct (u_hist_inv cf tops lops ENV st d HH) as (a & K & _).
  pose proof (e_ok _ _ _ ENV) as OK. pose proof (e_cf _ _ _ ENV) as CF.
  pose proof (lo_wf _ _ _ _ OK _ _ K) as W. pose proof (ok_step _ CF) as S0.
  assert (TA : a_top a = top).
  { apply N.le_antisymm; [|now apply (ob_top cf _ U _ OK _ _ K) in LT].
    destruct (wf_top _ W) as [T|T]; [lia|]. apply LE. now apply (ob_linked cf _ U _ OK _ _ _ K). }
  assert (IN : 1 <= top <= a_top a /\ ~ In top (a_free a)).
  { apply (wf_dom _ W). now apply (ob_linked cf _ U _ OK _ _ _ K). }
  destruct K as [R _]. pose proof (ur_alloc _ _ _ R) as AL. pose proof (ur_first _ _ _ R) as FI.
  assert (SH : u_len st' = top /\ h_alloc st' = top /\ h_first st' = hd 0 (a_free a)).
  { unfold u_open, u_alloc_mem in E. cbn [u_orc u_persist] in E.
    destruct (orc 0%nat (c_page cf)); [|discriminate].
    match type of E with context [u_header ?m] => destruct (u_header m) end; try discriminate.
    cbn [obind] in E. change (h_alloc (mkU _ _ _ _ _)) with (h_alloc st) in E. rewrite AL, TA in E.
    replace (N.max (c_step cf) top) with top in E by lia. cbn [u_orc] in E.
    destruct (orc 1%nat top); [|discriminate].
    match type of E with context [u_header ?m] => destruct (u_header m) end; try discriminate.
    cbn [obind u_len] in E. rewrite csub_ok in E by lia. cbn [obind] in E.
    destruct (ctry (c_tmax cf) (top - 1)) as [r| | |]; try discriminate. cbn [obind] in E. injection E as <-.
    split; [reflexivity|]. split; [|exact FI].
    unfold h_alloc, set_reserved, set_data. cbn [u_data]. rewrite upd_same. cbn [fst]. exact (eq_trans AL TA). }
  destruct SH as (LN & AL' & FI').
  assert (UH : u_header st' = Val tt) by (unfold u_header; rewrite LN; destruct (N.ltb_spec 0 top); [auto|lia]).
  assert (NF : h_first st' <> top).
  { rewrite FI'. destruct (a_free a) as [|y l] eqn:EF; cbn; [lia|]. intros ->. apply (proj2 IN). now left. }
  assert (G : u_get_link cf st' top = UB).
  { unfold u_get_link, u_exists, u_is_unused. rewrite UH. cbn [obind]. rewrite (ok_istart _ CF), AL', N.leb_refl.
    destruct (N.leb_spec 1 top); [|lia]. destruct (N.eqb_spec (h_first st') top); [contradiction|]. cbn [andb negb].
    unfold rd_unchecked. rewrite LN. destruct (N.ltb_spec top top); [lia|reflexivity]. }
  split; auto. intros H h x C. unfold u_each, u_each_all. rewrite UH. cbn [obind]. rewrite AL'.
  assert (B : forall j, j < top -> exists o, u_get_link cf st' j = Val o).
  { intros j J. unfold u_get_link, u_exists, u_is_unused. rewrite UH. cbn [obind].
    unfold rd_unchecked. rewrite LN. destruct (N.ltb_spec j top); [|lia].
    destruct ((c_istart cf <=? j) && (j <=? h_alloc st')); cbn [obind]; [|eauto].
    destruct ((j <=? h_alloc st') && negb (h_first st' =? j)); cbn [obind negb]; [|eauto].
    destruct (negb _); eauto. }
  assert (L : In top (range1 top) /\ forall j, In j (range1 top) -> j <= top).
  { split; [apply in_range1; lia|]. intros j J. apply in_range1 in J. lia. }
  destruct L as [L1 L2]. revert x L1 L2. generalize (range1 top). intros l.
  induction l as [|j l IH]; intros x IT JL; [contradiction|]. cbn [u_each_idx].
  destruct (N.eq_dec j top) as [->|NJ]; [now rewrite G|].
  destruct (B j) as (o & ->); [specialize (JL j (or_introl eq_refl)); lia|]. cbn [obind].
  assert (R' : forall x, u_each_idx cf st' h l x = UB).
  { intros y. apply IH; [destruct IT; [congruence|auto]|]. intros z Z. apply JL. now right. }
  destruct o as [lk|]; auto. specialize (C x lk). destruct (h x lk) as [y f]. cbn in C. subst f. auto.
Qed.

(** * C14 *)
Lemma L_C14_update_before_is_new cf tops lops st d q ch i s t :
  let U := unit_links cf tops lops in
  unit_env cf tops lops -> u_hist cf tops lops st d ->
  linked U st i -> separable U st i ->
  qget q 0 = Val i -> qget ch 1 = Val s -> qget ch 2 = Val t ->
  exists st', calls_once (fun H h x => u_update cf tops h q ch st x) st' (mkLink i s t) (mkLink i s t).
Proof.
  intros U ENV HH LI SE Q1 Q2 Q3. destruct (u_hist_inv cf tops lops ENV st d HH) as (a & K & D).
  pose proof ENV as (CF & TOK & _). pose proof (e_ok _ _ _ ENV) as OK.
  apply (ob_linked cf _ U _ OK _ _ _ K) in LI. apply (ob_sep cf _ U _ OK _ _ _ K) in SE.
  destruct (u_update_ok cf CF tops TOK st a q ch i s t K Q1 Q2 Q3 LI SE) as (st' & _ & _ & _ & C).
  exists st'. exact C.
Qed.
Lemma L_C14_update_before_refuted : exists st d st' before,
  u_hist ex_cf ref_tree_ops ref_list_ops st d /\ is_link ex_U st 3 2 1 /\
  u_update ex_cf ref_tree_ops (fun _ b _ => (b, Continue)) [3] [3; 2; 2] st nothing
    = Val (st', before, Ok Continue) /\ before <> mkLink 3 2 1.
Proof.
  destruct ex3_reach as (d & HH & _ & _ & _ & L3). exists (ex_st ex3), d.
  exists (match u_update ex_cf ref_tree_ops (fun _ b _ => (b, Continue)) [3] [3; 2; 2] (ex_st ex3) nothing with
          Val (s, _, _) => s | _ => ex_start end), (mkLink 3 2 2).
  sp. sp. split; [vm_compute; reflexivity|discriminate].
Qed.

(** * C15 *)
Lemma L_C15_handlers_told_the_truth cf tops lops st d H (h : whandler H) q x st' x' r :
  let U := unit_links cf tops lops in
  unit_env cf tops lops -> u_hist cf tops lops st d ->
  (u_create cf lops h q st x = Val (st', x', r) ->
     match r with
     | Ok f => exists i, no_link U st i /\ is_link U st' i 0 0 /\ (x', f) = h x nothing (mkLink i 0 0)
     | Err _ => x' = x
     end) /\
  (forall i, qget q 0 = Val i -> u_okc cf tops lops st i -> u_delete cf tops lops h q st x = Val (st', x', r) ->
     match r with
     | Ok f => exists s t, is_link U st i s t /\ no_link U st' i /\ (x', f) = h x (mkLink i s t) nothing
     | Err _ => x' = x
     end).
Proof.
  intros U ENV HH. destruct (u_hist_inv cf tops lops ENV st d HH) as (a & K & D).
  pose proof (e_ok _ _ _ ENV) as OK. split.
  - intros E.
    destruct (u_create_obs cf tops lops st d a q ENV HH K) as [(_ & _ & _ & _ & P)|[[_ F]|[(_ & _ & _ & st2 & _ & _ & _ & F)|(_ & st2 & H2 & C2 & C)]]].
    + rewrite P in E. discriminate.
    + rewrite F in E. injection E as _ <- <-. reflexivity.
    + rewrite F in E. injection E as _ <- <-. reflexivity.
    + rewrite C in E. injection E as <- <- <-. exists (a_next a). destruct C2 as (_ & C3 & C4 & _).
      split; auto. split; auto. now destruct (h x nothing (mkLink (a_next a) 0 0)).
  - intros i Q OKC E. destruct (a_map a i) as [[s t]|] eqn:M.
    + assert (LI : is_link U st i s t) by now apply (ob_link cf _ U _ OK _ _ _ _ _ K).
      assert (SE : separable U st i).
      { destruct OKC as [NL|SE]; auto. apply (ob_none cf _ U _ OK _ _ _ K) in NL. congruence. }
      destruct (L_C08_delete_removes_one cf tops lops st d q i s t ENV HH LI SE Q) as (st2 & _ & C & NL & _).
      rewrite C in E. injection E as <- <- <-. exists s, t. split; auto. split; auto.
      now destruct (h x (mkLink i s t) nothing).
    + assert (NL : no_link U st i) by now apply (ob_none cf _ U _ OK _ _ _ K).
      rewrite (u_delete_none cf (e_cf _ _ _ ENV) tops lops st a q i K Q M) in E. injection E as _ <- <-. reflexivity.
Qed.
Lemma L_C15_nonvacuous : exists st d, u_hist ex_cf ref_tree_ops ref_list_ops st d /\
  match u_delete ex_cf ref_tree_ops ref_list_ops (fun l b a => (l ++ [(b, a)], Break)) [2] st [] with
  | Val (_, x', r) => x' = [(mkLink 2 1 2, nothing)] /\ r = Ok Break | _ => False end.
Proof.
  destruct ex3h_reach as (d & HH & _). exists (ex_st ex3h), d. sp. vm_compute; auto.
Qed.
