(** Properties of the default methods of the Doublets trait on histories of the two-memory
    store (proofs; the statements are repeated in PropSplitDefaults.v). *)
From Coq Require Import NArith List Bool Lia Permutation Sorted.
From Verif Require Import Base Trees Lists Spec Iface UnitModel UnitInv UnitOps UnitLinks LinkModel SplitModel Forest
  SplitInv SplitReads SplitOps SplitWrites SplitLinks Doublets Obs DoubletsOK Hist Claims TreeImpl UnitHist SplitHist
  SplitClaims DefaultClaims.
Import ListNotations.
Open Scope N_scope.

Ltac shopen a K D :=
  match goal with
  | ENV : unit_env ?cf ?tops ?lops, HH : s_hist ?cf ?tops ?lops ?st ?d |- _ =>
      destruct (sh_hist cf tops lops ENV st d HH) as (a & K & D)
  end.

(** [create] would give the index [i]. *)
Definition next_index {S} (I : LinksI S) (st : S) (i : N) : Prop := exists st', d_create I st = Val (st', Ok i).
(** No link refers to the index [create] would give. *)
Definition next_unreferred {S} (I : LinksI S) (st : S) : Prop :=
  forall i, next_index I st i -> unreferred I st i.

Section Aux.
  Variables (cf : cfg) (tops : tree_ops) (lops : list_ops).
  Hypothesis ENV : unit_env cf tops lops.
  Notation SL := (split_links cf tops lops).
  Notation SH := (sh cf tops lops).
  Notation any := (c_any cf).
  Let CF : cfg_ok cf := f_cf cf tops lops ENV.
  Let OK : links_ok cf (split_spec cf) SL SH := sh_links_ok cf tops lops ENV.

  Lemma sh_del_distinct : del_distinct (split_spec cf).
  Proof. intros a i D. now apply split_delete_distinct. Qed.
  Lemma sh_del_safe : del_safe (split_spec cf) split_delete_ok.
  Proof.
    constructor.
    - auto.
    - intros a i j NE [D U]. split; [now apply detachable_delete|]. intros x s t M XI E.
      rewrite a_delete_map in M. unfold upd in M. destruct (N.eqb_spec x j) as [->|XJ]; [discriminate|].
      apply detachable_delete; auto. eapply U; eauto.
    - intros a i [D _]. exact D.
  Qed.
  Lemma sh_count_known : count_known (split_spec cf) SH.
  Proof. intros st a _. cbn. auto. Qed.
  Lemma sh_create_null : c_iend cf + 1 + c_step cf <= c_tmax cf -> create_null (split_spec cf) SH.
  Proof.
    intros RM st a K ON. pose proof (lo_wf _ _ _ _ OK _ _ K) as W. cbn. split.
    - unfold a_full, room. destruct (a_free a); [|right; left; discriminate].
      destruct (N.le_gt_cases (c_iend cf) (a_top a)); [left; auto|right; right; lia].
    - intros x s t M. apply ON in M. injection M as -> ->. pose proof (a_next_pos a W). lia.
  Qed.
  Lemma room_room a : c_iend cf + 1 + c_step cf <= c_tmax cf -> a_full cf a \/ a_free a <> [] \/ room cf a.
  Proof.
    intros RM. unfold a_full, room. destruct (a_free a); [|right; left; discriminate].
    destruct (N.le_gt_cases (c_iend cf) (a_top a)); [left; auto|right; right; lia].
  Qed.

  (** Both queries for the usages of an existing link. *)
  Lemma usage_queries st a i : SH st a -> linked SL st i ->
    i <> 0 /\ i <> any /\ sp_query (split_spec cf) a [any; i; any] /\ sp_query (split_spec cf) a [any; any; i].
  Proof.
    intros K LI. apply (ob_linked cf _ SL _ OK _ _ _ K) in LI.
    destruct (exists_range cf _ SL _ OK _ _ _ CF K LI) as (O0 & OA & _). pose proof (any0 cf CF) as A0.
    split; auto. split; auto. cbn. split; (split; [tauto|]); intros _; split; [|split| |split]; try tauto.
  Qed.
  Lemma sh_seen st a i : SH st a -> linked SL st i -> src_seen cf SL st i /\ tgt_seen cf SL st i.
  Proof.
    intros K LI. destruct (usage_queries _ _ _ K LI) as (I0 & IA & Q1 & Q2). pose proof (any0 cf CF) as A0.
    pose proof K as [K0 _].
    split.
    - destruct (lo_query _ _ _ _ OK _ _ _ K Q1) as (L & VO & E & C).
      destruct (visits_match cf tops lops ENV st a [any; i; any] L K0) as [ND M]; auto;
        try (cbn; tauto); try (cbn; lia).
      exists L. split; [split; auto|]. split; auto. intros l. rewrite M. cbn. unfold part_match. intuition congruence.
    - destruct (lo_query _ _ _ _ OK _ _ _ K Q2) as (L & VO & E & C).
      destruct (visits_match cf tops lops ENV st a [any; any; i] L K0) as [ND M]; auto;
        try (cbn; tauto); try (cbn; lia).
      exists L. split; [split; auto|]. split; auto. intros l. rewrite M. cbn. unfold part_match. intuition congruence.
  Qed.

  (** The queries that are both visited and counted rightly. *)
  Lemma good_query st a q : SH st a -> 2 * c_iend cf <= c_tmax cf -> (length q <= 3)%nat -> plain_query any q ->
    countable any SL st q -> sp_query (split_spec cf) a q.
  Proof.
    intros [K _] DB LQ P C. split; [now apply plain_each|]. eapply countable_count; eauto.
  Qed.

  (** search only visits. *)
  Lemma find_each st q L : (forall H (h : rhandler H) x, li_each SL H h q st x = Val (run_handler h L x)) ->
    d_find SL st q = Val (hd_error L).
  Proof.
    intros V. unfold d_find, d_each_by. rewrite V, run_radapt. destruct L; reflexivity.
  Qed.
  Lemma sh_search st a s t : SH st a -> s <> 0 -> (t = 0 -> no_hole SL st) -> s <> any -> t <> any ->
    (d_search cf SL st s t = Val None /\ forall i, ~ is_link SL st i s t) \/
    (exists i, d_search cf SL st s t = Val (Some i) /\ is_link SL st i s t).
  Proof.
    intros K S0 T0 SA TA. setoid_rewrite (ob_link cf _ SL _ OK _ _ _ _ _ K). pose proof K as [K0 _].
    rewrite (ob_nohole cf tops lops ENV _ _ K0) in T0.
    destruct (s_each_ok cf CF st a (proj1 K0) [any; s; t]) as (L & VO & E).
    { cbn. tauto. }
    unfold d_search. rewrite (find_each _ _ _ E). cbn [obind].
    destruct (search_visits cf _ SL _ OK _ _ _ _ _ K SA TA S0 VO) as [[-> N]|(i & -> & N)]; [left|right]; auto.
    exists i. auto.
  Qed.

  Lemma create_link_fails st st' s t e : fails_with (fun H h x => s_create cf tops lops h [] st x) st' e ->
    d_create_link SL s t st = Val (st', Err e).
  Proof.
    intros F. unfold d_create_link, d_create_link_with, d_create_with, d_create_by_with.
    change (li_create SL) with (fun H (h : whandler H) q (st : _) (x : H) => s_create cf tops lops h q st x).
    cbv beta. rewrite F. reflexivity.
  Qed.
  Lemma create_point_fails st st' e : fails_with (fun H h x => s_create cf tops lops h [] st x) st' e ->
    d_create_point SL st = Val (st', Err e).
  Proof. intros F. unfold d_create_point, d_create. rewrite (d_create_fail SL st [] st' e F). reflexivity. Qed.

  Lemma fresh_update a s t : awf a -> (t = 0 -> s = 0) -> split_update_ok (a_create a) (a_next a) s t.
  Proof.
    intros W TS. assert (M : a_map (a_create a) (a_next a) = Some (0, 0)) by (rewrite a_create_map; apply upd_same).
    split; [left; auto|]. split; auto. intros _. eauto.
  Qed.

  (** Either creation fails, or the contract holds for it. *)
  Lemma create_ready st a d : SH st a -> s_hist cf tops lops st d -> c_iend cf + 1 + c_step cf <= c_tmax cf -> next_unreferred SL st ->
    (range_full cf SL st /\ fails_with (fun H h x => s_create cf tops lops h [] st x) st (LimitReached (c_iend cf))) \/
    (exists st', s_hist cf tops lops st' d /\ same_links SL st st' /\
       fails_with (fun H h x => s_create cf tops lops h [] st x) st' AllocFailed) \/
    sp_create (split_spec cf) a.
  Proof.
    intros K HH RM NU. pose proof K as [K0 _].
    destruct (s_create_obs cf tops lops ENV st a d [] HH K0) as
      [(_ & _ & TM & _)|[F|[(N1 & N2 & st' & N3 & N4 & N5 & N6)|(N1 & st' & N2 & _ & N3 & N4)]]].
    - exfalso. lia.
    - left. exact F.
    - right; left. exists st'. auto.
    - right; right. split; [now apply room_room|]. apply (ob_unref _ _ _ ENV _ _ _ K0). apply NU.
      exists st'. exact (d_create_once SL st [] st' _ _ _ N4).
  Qed.
  Lemma okd_at st a i : SH st a -> linked SL st i -> s_okd SL st i -> split_delete_ok a i.
  Proof.
    intros K LI D. apply (ob_okd cf tops lops ENV _ _ _ (proj1 K)); auto. now apply (ob_linked cf _ SL _ OK _ _ _ K).
  Qed.
  Lemma okd_users st a i : SH st a -> (forall l, user SL st i l -> s_okd SL st (l_index l)) ->
    forall l, user SL st i l -> split_delete_ok a (l_index l).
  Proof.
    intros K D [j s t] Hl. apply (okd_at st); auto. destruct Hl as (Hl & _). exists s, t. exact Hl.
  Qed.
End Aux.

(** * C52 *)
Lemma L_C52_split_search_partial cf tops lops st d s t :
  let SL := split_links cf tops lops in
  unit_env cf tops lops -> s_hist cf tops lops st d ->
  s <> 0 -> (t = 0 -> no_hole SL st) -> s <> c_any cf -> t <> c_any cf ->
  (d_search cf SL st s t = Val None /\ forall i, ~ is_link SL st i s t) \/
  (exists i, d_search cf SL st s t = Val (Some i) /\ is_link SL st i s t).
Proof. intros SL ENV HH S0 T0 SA TA. shopen a K D. exact (sh_search cf tops lops ENV st a s t K S0 T0 SA TA). Qed.
Lemma L_C52_split_search_or_partial cf tops lops st d s t z :
  let SL := split_links cf tops lops in
  unit_env cf tops lops -> s_hist cf tops lops st d ->
  s <> 0 -> (t = 0 -> no_hole SL st) -> s <> c_any cf -> t <> c_any cf ->
  exists i, d_search_or cf SL st s t z = Val i /\
    (is_link SL st i s t \/ i = z /\ forall j, ~ is_link SL st j s t).
Proof.
  intros SL ENV HH S0 T0 SA TA. unfold d_search_or.
  destruct (L_C52_split_search_partial cf tops lops st d s t ENV HH S0 T0 SA TA) as [[E N]|(i & E & L)]; fold SL in E; rewrite E; cbn [obind]; eauto.
Qed.
Lemma L_C52_partial_nonvacuous : exists st d, s_hist ex_cf ref_tree_ops ref_list_ops st d /\
  hole ex_S st 4 /\ d_search ex_cf ex_S st 2 4 = Val (Some 3) /\ d_search ex_cf ex_S st 4 2 = Val None /\
  d_search ex_cf ex_S st 5 1 = Val (Some 5) /\ d_search_or ex_cf ex_S st 5 1 9 = Val 5 /\ d_search_or ex_cf ex_S st 4 2 9 = Val 9.
Proof.
  destruct (ex_sreach ex4h) as (d & HH & K); [vm_compute; reflexivity..|]. exists (ex_sst ex4h), d. sp.
  split; [|conj; vm_compute; reflexivity]. apply (ob_hole ex_cf _ _ _ (f_ok _ _ _ ex_env) _ _ _ K). vm_compute. auto.
Qed.
(** Once there is a hole, a search for a null target from an outer source answers with a
    link that has another target; get_or_create then returns that link. *)
Lemma L_C52_split_search_refuted : exists st d, s_hist ex_cf ref_tree_ops ref_list_ops st d /\ distinct_pairs ex_S st /\
  is_link ex_S st 1 50 3 /\ d_search ex_cf ex_S st 50 0 = Val (Some 1) /\
  match d_get_or_create ex_cf ex_S 50 0 st with Val (_, r) => r = Ok 1 | _ => False end.
Proof.
  set (l := [Cr; Cr; Cr; Up 1 50 3; De 2]).
  destruct (ex_sreach l) as (d & HH & K); [vm_compute; reflexivity..|]. exists (ex_sst l), d. sp.
  split; [apply ex_sdistinct; vm_compute; reflexivity|]. conj; vm_compute; reflexivity.
Qed.

(** * C53 *)
Lemma L_C53_split_create_link_partial cf tops lops st d s t :
  let SL := split_links cf tops lops in
  unit_env cf tops lops -> c_iend cf + 1 + c_step cf <= c_tmax cf -> s_hist cf tops lops st d ->
  next_unreferred SL st -> (t = 0 -> s = 0) ->
  (range_full cf SL st /\ d_create_link SL s t st = Val (st, Err (LimitReached (c_iend cf)))) \/
  (exists st', (exists d', s_hist cf tops lops st' d') /\ same_links SL st st' /\
     d_create_link SL s t st = Val (st', Err AllocFailed)) \/
  (exists st' i, (exists d', s_hist cf tops lops st' d') /\ adds cf SL st st' i s t /\
     d_create_link SL s t st = Val (st', Ok i)).
Proof.
  intros SL ENV RM HH NU TS. shopen a K D. pose proof (sh_links_ok _ _ _ ENV) as OK. pose proof (lo_wf _ _ _ _ OK _ _ K) as W.
  destruct (create_ready cf tops lops ENV st a d K HH RM NU) as [[F1 F]|[(st' & N1 & N2 & F)|SC]].
  - left. split; auto. now apply create_link_fails.
  - right; left. exists st'. split; [eauto|]. split; auto. now apply create_link_fails.
  - destruct (g_create_link_w cf _ SL _ OK st a s t K SC (fresh_update a s t W TS)) as [G|[(st' & K' & G)|(st' & K' & G)]]; auto.
    + right; left. exists st'. split; [apply K'|exact G].
    + right; right. exists st', (a_next a). split; [apply K'|exact G].
Qed.
Lemma L_C53_split_create_point_partial cf tops lops st d :
  let SL := split_links cf tops lops in
  unit_env cf tops lops -> c_iend cf + 1 + c_step cf <= c_tmax cf -> s_hist cf tops lops st d ->
  next_unreferred SL st ->
  (range_full cf SL st /\ d_create_point SL st = Val (st, Err (LimitReached (c_iend cf)))) \/
  (exists st', (exists d', s_hist cf tops lops st' d') /\ same_links SL st st' /\
     d_create_point SL st = Val (st', Err AllocFailed)) \/
  (exists st' i, (exists d', s_hist cf tops lops st' d') /\ adds cf SL st st' i i i /\
     d_create_point SL st = Val (st', Ok i)).
Proof.
  intros SL ENV RM HH NU. shopen a K D. pose proof (sh_links_ok _ _ _ ENV) as OK. pose proof (lo_wf _ _ _ _ OK _ _ K) as W.
  destruct (create_ready cf tops lops ENV st a d K HH RM NU) as [[F1 F]|[(st' & N1 & N2 & F)|SC]].
  - left. split; auto. now apply create_point_fails.
  - right; left. exists st'. split; [eauto|]. split; auto. now apply create_point_fails.
  - destruct (g_create_point_w cf _ SL _ OK st a K SC) as [G|[(st' & K' & G)|(st' & K' & G)]]; auto.
    + apply fresh_update; auto.
    + right; left. exists st'. split; [apply K'|exact G].
    + right; right. exists st', (a_next a). split; [apply K'|exact G].
Qed.
Lemma L_C53_split_get_or_create_partial cf tops lops st d s t :
  let SL := split_links cf tops lops in
  unit_env cf tops lops -> c_iend cf + 1 + c_step cf <= c_tmax cf -> s_hist cf tops lops st d ->
  next_unreferred SL st -> s <> 0 -> t <> 0 -> s <> c_any cf -> t <> c_any cf ->
  (exists i, is_link SL st i s t /\ d_get_or_create cf SL s t st = Val (st, Ok i)) \/
  (forall i, ~ is_link SL st i s t) /\
  (range_full cf SL st /\ d_get_or_create cf SL s t st = Val (st, Err (LimitReached (c_iend cf))) \/
   (exists st', (exists d', s_hist cf tops lops st' d') /\ same_links SL st st' /\
      d_get_or_create cf SL s t st = Val (st', Err AllocFailed)) \/
   (exists st' i, (exists d', s_hist cf tops lops st' d') /\ adds cf SL st st' i s t /\
      (distinct_pairs SL st -> distinct_pairs SL st') /\
      d_get_or_create cf SL s t st = Val (st', Ok i) /\ d_get_or_create cf SL s t st' = Val (st', Ok i))).
Proof.
  intros SL ENV RM HH NU S0 T0 SA TA.
  assert (TS : t = 0 -> s = 0) by (intros; contradiction).
  destruct (L_C52_split_search_partial cf tops lops st d s t ENV HH S0) as [[E NL]|(i & E & L)]; auto; try (intros; contradiction).
  - right. split; auto.
    assert (EQ : d_get_or_create cf SL s t st = d_create_link SL s t st).
    { unfold d_get_or_create. unfold SL. rewrite E. reflexivity. }
    rewrite EQ. destruct (L_C53_split_create_link_partial cf tops lops st d s t ENV RM HH NU TS) as [G|[G|(st' & i & (d' & HH') & A & G)]]; auto.
    right; right. exists st', i. split; [eauto|]. split; auto. split; [intros; eapply adds_distinct; eauto|]. split; auto.
    unfold d_get_or_create.
    destruct (L_C52_split_search_partial cf tops lops st' d' s t ENV HH' S0) as [[_ NL']|(j & E' & L')]; auto; try (intros; contradiction).
    + exfalso. apply (NL' i). apply A.
    + fold SL in E', L'. rewrite E'. cbn [obind]. assert (j = i) as ->; auto.
      destruct (N.eq_dec j i) as [|NE]; auto. exfalso. apply (NL j).
      unfold is_link. destruct A as (_ & _ & _ & F). rewrite <- (F j NE). exact L'.
  - left. exists i. split; auto. unfold d_get_or_create. fold SL in E. rewrite E. reflexivity.
Qed.
(** links 1: 1->1, 2: 1->2, 4: 2->50, 5: 51->1; 3 was deleted *)
Definition ex5s : list cmd := [Cr; Cr; Cr; Cr; Cr; Up 1 1 1; Up 2 1 2; Up 4 2 50; Up 5 51 1; De 3].
Lemma ex5s_reach : exists d, s_hist ex_cf ref_tree_ops ref_list_ops (ex_sst ex5s) d /\ srep ex_cf (ex_sst ex5s) (arun a_empty ex5s) /\
  distinct_pairs ex_S (ex_sst ex5s).
Proof.
  destruct (ex_sreach ex5s) as (d & HH & K); [vm_compute; reflexivity..|]. exists d. sp. sp.
  apply ex_sdistinct; vm_compute; reflexivity.
Qed.
Lemma ex_next l i : srep ex_cf (ex_sst l) (arun a_empty l) -> unrefb (arun a_empty l) i = true ->
  match d_create ex_S (ex_sst l) with Val (_, Ok j) => j =? i | _ => false end = true -> next_unreferred ex_S (ex_sst l).
Proof.
  intros K U E j (st' & NJ). rewrite NJ in E. apply N.eqb_eq in E as ->.
  apply (ob_unref _ _ _ ex_env _ _ _ K). apply unrefb_ok; auto. apply K.
Qed.
Lemma L_C53_partial_nonvacuous : c_iend ex_cf + 1 + c_step ex_cf <= c_tmax ex_cf /\
  exists st d, s_hist ex_cf ref_tree_ops ref_list_ops st d /\ next_unreferred ex_S st /\ distinct_pairs ex_S st /\
  (exists st', d_get_or_create ex_cf ex_S 51 1 st = Val (st', Ok 5)) /\
  (exists st', d_get_or_create ex_cf ex_S 50 51 st = Val (st', Ok 3) /\ is_link ex_S st' 3 50 51) /\
  (exists st', d_create_point ex_S st = Val (st', Ok 3) /\ is_link ex_S st' 3 3 3 /\ is_link ex_S st' 5 51 1).
Proof.
  split; [cbn; lia|]. destruct ex5s_reach as (d & HH & K & DP). exists (ex_sst ex5s), d. sp.
  split; [apply (ex_next ex5s 3 K); vm_compute; reflexivity|]. sp. split; [|split].
  - exists (ex_sst ex5s). vm_compute. reflexivity.
  - exists (match d_get_or_create ex_cf ex_S 50 51 (ex_sst ex5s) with Val (s, _) => s | _ => ex_sstart end).
    split; vm_compute; reflexivity.
  - exists (match d_create_point ex_S (ex_sst ex5s) with Val (s, _) => s | _ => ex_sstart end).
    conj; vm_compute; reflexivity.
Qed.
(** When the next index is referred to, the new link is stored but the referring link is no
    longer found: search denies it and get_or_create makes a second link with its pair. *)
Lemma L_C53_split_get_or_create_refuted : exists st d st1 st2, s_hist ex_cf ref_tree_ops ref_list_ops st d /\ distinct_pairs ex_S st /\
  is_link ex_S st 2 3 3 /\ d_search ex_cf ex_S st 3 3 = Val (Some 2) /\
  d_get_or_create ex_cf ex_S 1 4 st = Val (st1, Ok 3) /\ is_link ex_S st1 2 3 3 /\
  d_search ex_cf ex_S st1 3 3 = Val None /\
  d_get_or_create ex_cf ex_S 3 3 st1 = Val (st2, Ok 5) /\ is_link ex_S st2 2 3 3 /\ is_link ex_S st2 5 3 3.
Proof.
  set (l := [Cr; Cr; Cr; Cr; Up 1 1 1; Up 2 3 3; Up 4 4 4; De 3]).
  destruct (ex_sreach l) as (d & HH & K); [vm_compute; reflexivity..|].
  set (st1 := match d_get_or_create ex_cf ex_S 1 4 (ex_sst l) with Val (s, _) => s | _ => ex_sstart end).
  exists (ex_sst l), d, st1, (match d_get_or_create ex_cf ex_S 3 3 st1 with Val (s, _) => s | _ => ex_sstart end).
  sp. split; [apply ex_sdistinct; vm_compute; reflexivity|]. conj; vm_compute; reflexivity.
Qed.

(** * C54 *)
Lemma L_C54_split_usages cf tops lops st d i :
  let SL := split_links cf tops lops in
  unit_env cf tops lops -> s_hist cf tops lops st d -> 2 * c_iend cf <= c_tmax cf -> linked SL st i ->
  exists L1 L2, d_usages cf SL st i = Val (Ok (map l_index (L1 ++ L2))) /\
    d_count_usages cf SL st i = Val (Ok (N.of_nat (length (L1 ++ L2)))) /\
    d_has_usages cf SL st i = Val (match L1 ++ L2 with [] => false | _ => true end) /\
    NoDup L1 /\ NoDup L2 /\
    (forall l, In l L1 <-> li_get SL st (l_index l) = Val (Some l) /\ l_index l <> i /\ l_source l = i) /\
    (forall l, In l L2 <-> li_get SL st (l_index l) = Val (Some l) /\ l_index l <> i /\ l_target l = i).
Proof.
  intros SL ENV HH DB LI. shopen a K D. destruct (usage_queries cf tops lops ENV st a i K LI) as (_ & _ & Q1 & Q2).
  exact (g_usages_w cf (f_cf _ _ _ ENV) _ SL _ (sh_links_ok _ _ _ ENV) st a i K Q1 Q2 DB LI).
Qed.
Lemma L_C54_split_usages_missing cf tops lops st d i :
  let SL := split_links cf tops lops in
  unit_env cf tops lops -> s_hist cf tops lops st d -> no_link SL st i ->
  d_usages cf SL st i = Val (Err (NotExists i)) /\ d_count_usages cf SL st i = Val (Err (NotExists i)) /\
  d_has_usages cf SL st i = Val false.
Proof.
  intros SL ENV HH NL. shopen a K D. exact (g_usages_none cf _ SL _ (sh_links_ok _ _ _ ENV) st a i K NL).
Qed.
Lemma L_C54_split_delete_usages_partial cf tops lops st d i :
  let SL := split_links cf tops lops in
  unit_env cf tops lops -> s_hist cf tops lops st d -> (forall l, user SL st i l -> s_okd SL st (l_index l)) ->
  linked SL st i -> (forall x, x <> i -> ~ is_link SL st x i i) ->
  exists st' L, (exists d', s_hist cf tops lops st' d') /\ NoDup L /\
    (forall l, In l L <-> user SL st i l) /\ removed SL st st' L /\
    (forall H B (h : uwrite H B) x, d_delete_usages_with cf SL h i st x = Val (st', told h L x, Ok tt)) /\
    d_delete_usages cf SL i st = Val (st', Ok tt).
Proof.
  intros SL ENV HH DP LI NB. shopen a K D. destruct (sh_seen cf tops lops ENV st a i K LI) as [SS TS].
  destruct (g_delete_usages_w cf _ SL _ (sh_links_ok _ _ _ ENV) _ st a i (sh_del_safe cf) K SS TS
              (okd_users cf tops lops ENV st a i K DP) NB) as (st' & a' & L & K' & R).
  exists st', L. split; [apply K'|exact R].
Qed.
Lemma L_C54_split_delete_usages_double cf tops lops st d i x :
  let SL := split_links cf tops lops in
  unit_env cf tops lops -> s_hist cf tops lops st d -> (forall l, user SL st i l -> s_okd SL st (l_index l)) ->
  linked SL st i -> x <> i -> is_link SL st x i i ->
  exists st', d_delete_usages cf SL i st = Val (st', Err (NotExists x)).
Proof.
  intros SL ENV HH DP LI NX L. shopen a K D. destruct (sh_seen cf tops lops ENV st a i K LI) as [SS TS].
  destruct (usage_queries cf tops lops ENV st a i K LI) as (I0 & _).
  destruct (g_delete_usages_double_w cf _ SL _ (sh_links_ok _ _ _ ENV) _ st a i x (sh_del_safe cf) K I0 SS TS
              (okd_users cf tops lops ENV st a i K DP) NX L) as (st' & a' & K' & R). eauto.
Qed.
Lemma L_C54_nonvacuous : 2 * c_iend ex_cf <= c_tmax ex_cf /\
  exists st d, s_hist ex_cf ref_tree_ops ref_list_ops st d /\ distinct_pairs ex_S st /\
  linked ex_S st 1 /\ no_link ex_S st 3 /\ (forall x, x <> 1 -> ~ is_link ex_S st x 1 1) /\
  d_usages ex_cf ex_S st 1 = Val (Ok [2; 5]) /\
  exists st', d_delete_usages ex_cf ex_S 1 st = Val (st', Ok tt) /\ no_link ex_S st' 2 /\ no_link ex_S st' 5 /\ is_link ex_S st' 4 2 50.
Proof.
  split; [cbn; lia|]. destruct ex5s_reach as (d & HH & K & DP). exists (ex_sst ex5s), d. sp. sp.
  split; [exists 1, 1; vm_compute; reflexivity|]. split; [vm_compute; reflexivity|]. split; [|split; [vm_compute; reflexivity|]].
  - intros x NX L. assert (LK : linked ex_S (ex_sst ex5s) x) by (eexists; eauto).
    apply (ob_top ex_cf _ ex_S _ (f_ok _ _ _ ex_env) _ _ K) in LK.
    each_index LK; try contradiction; vm_compute in L; discriminate.
  - exists (match d_delete_usages ex_cf ex_S 1 (ex_sst ex5s) with Val (s, _) => s | _ => ex_sstart end).
    conj; vm_compute; reflexivity.
Qed.
Lemma L_C54_split_delete_usages_refuted : exists st d st', s_hist ex_cf ref_tree_ops ref_list_ops st d /\
  is_link ex_S st 3 2 2 /\ is_link ex_S st 4 2 1 /\
  d_delete_usages ex_cf ex_S 2 st = Val (st', Err (NotExists 3)) /\ is_link ex_S st' 4 2 1.
Proof.
  set (l := [Cr; Cr; Cr; Cr; Up 4 2 1; Up 3 2 2]).
  destruct (ex_sreach l) as (d & HH & K); [vm_compute; reflexivity..|].
  exists (ex_sst l), d. exists (match d_delete_usages ex_cf ex_S 2 (ex_sst l) with Val (s, _) => s | _ => ex_sstart end).
  sp. conj; vm_compute; reflexivity.
Qed.

(** * C55 *)
Lemma L_C55_split_find_single_iter cf tops lops st d q :
  let SL := split_links cf tops lops in
  unit_env cf tops lops -> s_hist cf tops lops st d -> 2 * c_iend cf <= c_tmax cf ->
  (length q <= 3)%nat -> plain_query (c_any cf) q -> countable (c_any cf) SL st q ->
  exists L,
    (forall l, In l L -> s_get_link cf st (l_index l) = Val (Some l)) /\
    (forall H (h : rhandler H) x, s_each cf h q st x = Val (run_handler h L x)) /\
    (forall H B (h : uread H B) x, exists r, d_each_by SL h q st x = Val r /\ visit_result h x L r) /\
    d_find SL st q = Val (match L with [] => None | l :: _ => Some l end) /\
    (exists b, d_found SL st q = Val b /\ (b = true <-> L <> [])) /\
    (exists o, d_single SL st q = Val o /\ forall l, o = Some l <-> L = [l]) /\
    d_each_iter SL st q = Val L /\ s_count cf st q = Val (N.of_nat (length L)) /\
    (q = [c_any cf; c_any cf; c_any cf] -> d_iter cf SL st = Val L).
Proof.
  intros SL ENV HH DB LQ P C. shopen a K D. pose proof (sh_links_ok _ _ _ ENV) as OK.
  destruct (visits_ex cf _ SL _ OK st a q K (good_query cf tops lops ENV st a q K DB LQ P C)) as (L & V & VO).
  exists L. split.
  { intros l IN. apply (visits_ok_in _ _ _ _ l VO) in IN.
    assert (G := lo_get _ _ _ _ OK _ _ (l_index l) K : s_get_link cf st (l_index l) = _). rewrite G.
    apply (in_alinks' a l (lo_wf _ _ _ _ OK _ _ K)) in IN. rewrite IN. destruct l; reflexivity. }
  split; [apply V|]. split.
  { intros H B h x. exists (urun h L x). split; [now apply d_each_by_ok|apply urun_visit]. }
  split; [rewrite (d_find_ok _ _ _ _ V); now destruct L|].
  split. { eexists. split; [exact (d_found_ok _ _ _ _ V)|]. destruct L; split; congruence. }
  split. { eexists. split; [exact (d_single_ok _ _ _ _ V)|]. intros l. destruct L as [|l1 [|l2 L]]; split; congruence. }
  split; [now apply d_each_iter_ok|]. split; [apply V|].
  intros ->. unfold d_iter. now apply d_each_iter_ok.
Qed.
Lemma L_C55_split_exist cf tops lops st d i :
  let SL := split_links cf tops lops in
  unit_env cf tops lops -> s_hist cf tops lops st d ->
  exists b, d_exist cf SL st i = Val b /\ (b = true <-> is_external cf i = true \/ linked SL st i).
Proof.
  intros SL ENV HH. shopen a K D. pose proof (sh_links_ok _ _ _ ENV) as OK. pose proof (f_cf _ _ _ ENV) as CF.
  pose proof (lo_iend _ _ _ _ OK _ _ K) as LE. pose proof K as [K0 _].
  unfold d_exist. destruct (is_external cf i) eqn:EX; [exists true; tauto|].
  unfold is_internal. rewrite (ok_istart _ CF). pose proof (ok_iend _ CF).
  destruct ((1 <=? i) && (i <=? c_iend cf)) eqn:IN.
  - apply andb_true_iff in IN as [I1 I2]. apply N.leb_le in I1, I2.
    assert (Q : sp_query (split_spec cf) a [i]) by (cbn; auto).
    destruct (lo_query _ _ _ _ OK _ _ _ K Q) as (L & VO & E & C).
    destruct (visits_match cf tops lops ENV st a [i] L K0) as [ND M]; auto; try (cbn; tauto); try (cbn; lia).
    rewrite (d_found_ok SL _ _ L (conj E C)). eexists. split; [reflexivity|]. split.
    + destruct L as [|l L]; [discriminate|]. intros _. right.
      destruct (proj1 (M l) (or_introl eq_refl)) as [K1 K2]. cbn in K2. unfold part_match in K2.
      destruct K2 as [K2|K2]; [lia|]. rewrite <- K2 in K1. destruct l as [j s t]. cbn in K2. subst j.
      exists s, t. exact K1.
    + intros [KE|(s & t & KL)]; [discriminate|]. destruct L as [|l L]; [|reflexivity].
      exfalso. apply (proj2 (M (mkLink i s t))). split; auto. cbn. unfold part_match. auto.
  - exists false. split; auto. split; [discriminate|]. intros [KE|KL]; [discriminate|].
    apply (ob_top cf _ SL _ OK _ _ K) in KL. apply andb_false_iff in IN as [IN|IN]; apply N.leb_gt in IN; lia.
Qed.
Lemma L_C55_nonvacuous : exists st d, s_hist ex_cf ref_tree_ops ref_list_ops st d /\
  plain_query 200 [200; 1; 200] /\ countable 200 ex_S st [200; 1; 200] /\
  d_find ex_S st [200; 1; 200] = Val (Some (mkLink 1 1 1)) /\ d_single ex_S st [200; 51; 200] = Val (Some (mkLink 5 51 1)) /\
  countable 200 ex_S st [200; 51; 200] /\
  d_each_by ex_S (fun v l => (v ++ [l_index l], if l_index l =? 4 then Some 77 else None)) [] st [] = Val ([1; 2; 4], Some 77) /\
  d_exist ex_cf ex_S st 3 = Val false /\ d_exist ex_cf ex_S st 4 = Val true.
Proof.
  destruct ex5s_reach as (d & HH & K & DP). exists (ex_sst ex5s), d. sp. split; [cbn; lia|]. split.
  { cbn. right. split; [lia|]. split; [lia|]. right; left. exists 1, 1. vm_compute. reflexivity. }
  split; [vm_compute; reflexivity|]. split; [vm_compute; reflexivity|]. split; [|conj; vm_compute; reflexivity].
  cbn. right. split; [lia|]. split; [lia|]. right; right. split; auto. right.
  exists 5, 51, 1. split; [vm_compute; reflexivity|]. split; [lia|]. vm_compute. reflexivity.
Qed.

(** * C56 *)
Lemma L_C56_split_delete_everything cf tops lops st d l :
  let SL := split_links cf tops lops in
  unit_env cf tops lops -> c_iend cf + 1 + c_step cf <= c_tmax cf -> s_hist cf tops lops st d ->
  distinct_pairs SL st -> NoDup l -> (forall i, In i l <-> linked SL st i) ->
  exists st', run_deletes SL l st = Val (st', Ok tt) /\ (exists d', s_hist cf tops lops st' d') /\
    (forall i, no_link SL st' i) /\ s_count cf st' [] = Val 0 /\
    forall n, exists st2 r, run_creates SL n st' = Val (st2, r) /\
      match r with
      | Ok l => l = map N.of_nat (seq 1 n)
      | Err e => e = AllocFailed \/ (e = LimitReached (c_iend cf) /\ c_iend cf < N.of_nat n)
      end.
Proof.
  intros SL ENV RM HH DP ND IN. shopen a K D.
  destruct (g_delete_everything_w cf _ SL _ (sh_links_ok _ _ _ ENV) st a l (sh_del_distinct cf) (sh_count_known cf tops lops)
              (sh_create_null cf tops lops ENV RM) K DP ND IN) as (st' & E & [_ HH'] & N & C & G).
  exists st'. auto.
Qed.
Lemma L_C56_split_delete_all_partial cf tops lops st d n :
  let SL := split_links cf tops lops in
  unit_env cf tops lops -> s_hist cf tops lops st d -> distinct_pairs SL st ->
  no_hole SL st -> s_count cf st [] = Val n ->
  exists st', (exists d', s_hist cf tops lops st' d') /\ (forall i, no_link SL st' i) /\
    forall fuel, (N.to_nat n < fuel)%nat -> d_delete_all SL fuel st = Val (st', Ok tt).
Proof.
  intros SL ENV HH DP NH CN. shopen a K D. pose proof (sh_links_ok _ _ _ ENV) as OK. pose proof K as [K0 _].
  assert (FE : a_free a = []) by now apply (ob_nohole cf tops lops ENV _ _ K0).
  pose proof (count_R0 cf _ SL _ OK (sh_count_known cf tops lops) _ _ K) as C.
  assert (TN : a_top a = N.of_nat (N.to_nat n)).
  { rewrite N2Nat.id. pose proof (len_alinks_split a (lo_wf _ _ _ _ OK _ _ K)) as LS. rewrite FE in LS. cbn in LS.
    change (s_count cf st [] = Val (N.of_nat (length (alinks a)))) in C. rewrite C in CN. injection CN as <-. lia. }
  destruct (g_delete_all_dense_w cf _ SL _ OK (N.to_nat n) (sh_del_distinct cf) (sh_count_known cf tops lops) st a K) as (st' & a' & K' & E & G); auto.
  { now apply (ob_distinct cf _ SL _ OK _ _ K). }
  exists st'. split; [apply K'|]. split; auto. intros i. now apply (ob_none cf _ SL _ OK _ _ _ K').
Qed.
Lemma L_C56_split_delete_all_holes cf tops lops st d n k :
  let SL := split_links cf tops lops in
  unit_env cf tops lops -> s_hist cf tops lops st d -> distinct_pairs SL st ->
  hole SL st k -> s_count cf st [] = Val n ->
  exists st' j, no_link SL st j /\
    forall fuel, (N.to_nat n < fuel)%nat -> d_delete_all SL fuel st = Val (st', Err (NotExists j)).
Proof.
  intros SL ENV HH DP HO CN. shopen a K D. pose proof (sh_links_ok _ _ _ ENV) as OK.
  pose proof (count_R0 cf _ SL _ OK (sh_count_known cf tops lops) _ _ K) as C.
  change (s_count cf st [] = Val (N.of_nat (length (alinks a)))) in C. rewrite C in CN. injection CN as <-.
  destruct (g_delete_all_holes_w cf _ SL _ OK (length (alinks a)) (sh_del_distinct cf) (sh_count_known cf tops lops) st a K)
    as (st' & a' & j & K' & _ & _ & _ & M & _ & _ & G); auto.
  { now apply (ob_distinct cf _ SL _ OK _ _ K). }
  { intros E. apply (ob_hole cf _ SL _ OK _ _ _ K) in HO. rewrite E in HO. exact HO. }
  exists st', j. split; [now apply (ob_none cf _ SL _ OK _ _ _ K)|].
  intros f LT. apply G. lia.
Qed.
Lemma L_C56_split_delete_query_partial cf tops lops st d q :
  let SL := split_links cf tops lops in
  unit_env cf tops lops -> s_hist cf tops lops st d -> 2 * c_iend cf <= c_tmax cf ->
  (length q <= 3)%nat -> plain_query (c_any cf) q -> countable (c_any cf) SL st q -> ~ end_query (c_any cf) q ->
  (forall l, s_get_link cf st (l_index l) = Val (Some l) -> query_match (c_any cf) q l -> s_okd SL st (l_index l)) ->
  exists st' L, (exists d', s_hist cf tops lops st' d') /\ NoDup L /\
    (forall l, In l L <-> s_get_link cf st (l_index l) = Val (Some l) /\ query_match (c_any cf) q l) /\
    removed SL st st' L /\
    forall H B (h : uwrite H B) x, d_delete_query_with SL h q st x = Val (st', told h (rev L) x, Ok tt).
Proof.
  intros SL ENV HH DB LQ P C EQ DP. shopen a K D. pose proof (sh_links_ok _ _ _ ENV) as OK. pose proof K as [K0 _].
  destruct (visits_ex cf _ SL _ OK st a q K (good_query cf tops lops ENV st a q K DB LQ P C)) as (L & V & VO).
  assert (NQ : ~ null_query (c_any cf) q).
  { destruct q as [|i [|s [|t [|? ?]]]]; cbn [null_query plain_query] in *; try tauto. }
  assert (SP : forall l, s_get_link cf st (l_index l) = Val (Some l) -> query_match (c_any cf) q l -> separable SL st (l_index l)).
  { intros l G Q. destruct (DP l G Q) as [X|[X _]]; [|exact X]. unfold no_link in X. cbn in X. congruence. }
  destruct (visits_match cf tops lops ENV st a q L K0 LQ NQ EQ (fun P => separable_one_match _ SL st _ P NQ SP) VO) as [ND M].
  destruct (g_delete_visits_w cf _ SL _ OK _ st a q L (sh_del_safe cf) K) as (st' & K' & RM & T); auto.
  { intros l IN. apply M in IN as [I1 I2]. apply (okd_at cf tops lops ENV st a (l_index l) K); [|now apply DP].
    exists (l_source l), (l_target l). destruct l; exact I1. }
  { intros l IN. now apply M. }
  exists st', L. split; [apply K'|]. auto.
Qed.
Lemma L_C56_nonvacuous : exists st d, s_hist ex_cf ref_tree_ops ref_list_ops st d /\ distinct_pairs ex_S st /\
  NoDup [2; 3; 1] /\ (forall i, In i [2; 3; 1] <-> linked ex_S st i) /\ no_hole ex_S st /\ s_count ex_cf st [] = Val 3 /\
  countable 200 ex_S st [200; 1; 200] /\
  (exists st', d_delete_query_with (B := unit) ex_S (fun v b _ => (v ++ [b], None)) [200; 1; 200] st []
    = Val (st', [mkLink 2 1 2; mkLink 1 1 1], Ok tt)) /\
  match run_deletes ex_S [2; 3; 1] st with
  | Val (st', Ok _) => match run_creates ex_S 4 st' with Val (_, r) => r = Ok [1; 2; 3; 4] | _ => False end
  | _ => False
  end.
Proof.
  destruct (ex_sreach ex3) as (d & HH & K); [vm_compute; reflexivity..|]. destruct ex3_sreach as (_ & _ & DP & L1 & L2 & L3).
  exists (ex_sst ex3), d. sp. sp. pose proof (f_ok _ _ _ ex_env) as OK.
  split; [repeat constructor; simpl; intuition discriminate|]. split.
  { intros i. split.
    - intros [<-|[<-|[<-|[]]]]; eexists; eauto.
    - intros LK. apply (ob_top ex_cf _ ex_S _ OK _ _ K) in LK. each_index LK; simpl; auto. }
  split; [|split; [vm_compute; reflexivity|split]].
  - apply (ob_nohole _ _ _ ex_env _ _ K). vm_compute. reflexivity.
  - cbn. right. split; [lia|]. split; [lia|]. right; left. exists 1, 1. auto.
  - split; [|vm_compute; reflexivity].
    exists (match d_delete_query_with (B := unit) ex_S (fun v b _ => (v ++ [b], None)) [200; 1; 200] (ex_sst ex3) [] with
            Val (s, _, _) => s | _ => ex_sstart end). vm_compute. reflexivity.
Qed.
Lemma L_C56_split_delete_all_refuted : exists st d st', s_hist ex_cf ref_tree_ops ref_list_ops st d /\
  distinct_pairs ex_S st /\ d_delete_all ex_S 100 st = Val (st', Err (NotExists 3)) /\ is_link ex_S st' 1 1 1.
Proof.
  destruct ex5s_reach as (d & HH & K & DP). exists (ex_sst ex5s), d.
  exists (match d_delete_all ex_S 100 (ex_sst ex5s) with Val (s, _) => s | _ => ex_sstart end).
  sp. sp. split; vm_compute; reflexivity.
Qed.

(** * C57 *)
(** The links that would be redirected do not refer to themselves, and the new index is not
    one of them. *)
Definition plain_users {S} (I : LinksI S) (st : S) (old new : N) : Prop :=
  forall u, user I st old u -> l_index u <> new /\ l_source u <> l_index u /\ l_target u <> l_index u.
Lemma sh_rebase cf tops lops (ENV : unit_env cf tops lops) st a old new :
  let SL := split_links cf tops lops in
  sh cf tops lops st a -> distinct_pairs SL st ->
  old <> new -> new <> 0 -> linked SL st old -> (forall x, x <> old -> ~ is_link SL st x old old) ->
  plain_users SL st old new ->
  (forall i j s t, moved SL st old new i s t -> moved SL st old new j s t -> (s, t) <> (0, 0) -> i = j) ->
  exists st' a', sh cf tops lops st' a' /\ (forall i s t, is_link SL st' i s t <-> moved SL st old new i s t) /\
    d_rebase cf SL old new st = Val (st', Ok new) /\
    (forall H B (h : uwrite H B) x, exists x', d_rebase_with cf SL h old new st x = Val (st', x', Ok tt)) /\
    (forall i s t, is_link SL st' i s t -> i <> old -> s <> old /\ t <> old).
Proof.
  intros SL K DP NE N0 LK NB PU MI. pose proof (sh_links_ok _ _ _ ENV) as OK.
  destruct (sh_seen cf tops lops ENV st a old K LK) as [SS TS].
  destruct (usage_queries cf tops lops ENV st a old K LK) as (O0 & _ & _).
  assert (VI : visible a) by apply K.
  apply (g_rebase_with_w cf (f_cf _ _ _ ENV) _ SL _ OK st a old new K); auto.
  intros a' u US D' M'. destruct (PU u US) as (P1 & P2 & P3). split; [now apply adistinct_detachable|].
    destruct US as (U1 & U2 & U3).
    assert (MU : a_map a (l_index u) = Some (l_source u, l_target u)).
    { destruct u as [j s t]. now apply (ob_link cf _ SL _ OK _ _ _ _ _ K). }
    unfold redirect. split.
    - destruct (N.eqb_spec (l_target u) old) as [E|E]; [congruence|]. intros T0.
      assert (S0 : l_source u = 0) by (apply (VI (l_index u)); rewrite <- T0; exact MU).
      destruct (N.eqb_spec (l_source u) old) as [E'|E']; [congruence|exact S0].
    - intros [X|X]; exfalso; [destruct (N.eqb_spec (l_source u) old)|destruct (N.eqb_spec (l_target u) old)]; congruence.
Qed.
Lemma L_C57_split_rebase_partial cf tops lops st d old new :
  let SL := split_links cf tops lops in
  unit_env cf tops lops -> s_hist cf tops lops st d -> distinct_pairs SL st ->
  old <> new -> new <> 0 -> linked SL st old -> (forall x, x <> old -> ~ is_link SL st x old old) ->
  plain_users SL st old new ->
  (forall i j s t, moved SL st old new i s t -> moved SL st old new j s t -> (s, t) <> (0, 0) -> i = j) ->
  exists st', (exists d', s_hist cf tops lops st' d') /\ d_rebase cf SL old new st = Val (st', Ok new) /\
    (forall i s t, is_link SL st' i s t <-> moved SL st old new i s t) /\
    (forall i s t, is_link SL st' i s t -> i <> old -> s <> old /\ t <> old) /\
    exists st2, (exists d2, s_hist cf tops lops st2 d2) /\ d_rebase_and_delete cf SL old new st = Val (st2, Ok 0) /\
      no_link SL st2 old /\ (forall i s t, is_link SL st2 i s t <-> merged SL st old new i s t).
Proof.
  intros SL ENV HH DP NE N0 LK NB PU MI. shopen a K D. pose proof (sh_links_ok _ _ _ ENV) as OK.
  destruct (sh_rebase cf tops lops ENV st a old new K DP NE N0 LK NB PU MI) as (st1 & a1 & K1 & M1 & E1 & _ & C1).
  fold SL in M1, E1, C1.
  exists st1. split; [apply K1|]. split; auto. split; auto. split; auto.
  destruct LK as (s0 & t0 & L0).
  assert (L1 : is_link SL st1 old s0 t0).
  { apply M1. exists s0, t0. split; auto. rewrite N.eqb_refl. auto. }
  assert (AD : adistinct a1).
  { apply (ob_distinct cf _ SL _ OK _ _ K1). intros i j s t A B NZ. apply (MI i j s t); auto; now apply M1. }
  pose proof (proj1 (ob_link cf _ SL _ OK _ _ _ _ _ K1) L1) as L1a.
  destruct (d_delete_with_ok cf _ SL _ OK st1 a1 old s0 t0 K1 L1a (sh_del_distinct cf a1 old AD)) as (st2 & K2 & _ & E2).
  exists st2. split; [apply K2|]. split.
  - unfold d_rebase_and_delete. destruct (N.eqb_spec old new); [contradiction|]. rewrite E1. exact E2.
  - pose proof (Spec.a_delete_map a1 old) as MD.
    split; [apply (ob_none cf _ SL _ OK _ _ _ K2); rewrite MD; apply upd_same|].
    intros i s t. rewrite (ob_link cf _ SL _ OK _ _ _ _ _ K2), MD. unfold merged.
    destruct (N.eq_dec i old) as [->|NI].
    + rewrite upd_same. split; [discriminate|tauto].
    + rewrite upd_other by auto. rewrite <- (ob_link cf _ SL _ OK _ _ _ _ _ K1), M1. unfold moved.
      destruct (N.eqb_spec i old); [contradiction|]. tauto.
Qed.
Lemma ex5rs_top x s t : is_link ex_S (ex_sst ex5r) x s t -> 1 <= x <= 5.
Proof.
  destruct (ex_sreach ex5r) as (d & HH & K); [vm_compute; reflexivity..|].
  intros L. assert (LK : linked ex_S (ex_sst ex5r) x) by (eexists; eauto).
  apply (ob_top ex_cf _ ex_S _ (f_ok _ _ _ ex_env) _ _ K) in LK. vm_compute (a_top _) in LK. exact LK.
Qed.
Lemma L_C57_partial_nonvacuous : exists st d st', s_hist ex_cf ref_tree_ops ref_list_ops st d /\
  distinct_pairs ex_S st /\ linked ex_S st 1 /\ (forall x, x <> 1 -> ~ is_link ex_S st x 1 1) /\ plain_users ex_S st 1 5 /\
  (forall i j s t, moved ex_S st 1 5 i s t -> moved ex_S st 1 5 j s t -> (s, t) <> (0, 0) -> i = j) /\
  d_rebase ex_cf ex_S 1 5 st = Val (st', Ok 5) /\ is_link ex_S st' 3 5 2 /\ is_link ex_S st' 4 3 5.
Proof.
  destruct (ex_sreach ex5r) as (d & HH & K); [vm_compute; reflexivity..|]. exists (ex_sst ex5r), d.
  exists (match d_rebase ex_cf ex_S 1 5 (ex_sst ex5r) with Val (s, _) => s | _ => ex_sstart end).
  sp. split; [apply ex_sdistinct; vm_compute; reflexivity|].
  split; [exists 1, 1; vm_compute; reflexivity|]. split; [|split; [|split; [|conj; vm_compute; reflexivity]]].
  - intros x NX L. pose proof (ex5rs_top _ _ _ L) as T. each_index T; try contradiction; vm_compute in L; discriminate.
  - intros [x s t] (L & NX & SE). cbn [l_index l_source l_target] in *. pose proof (ex5rs_top _ _ _ L) as T.
    each_index T; try contradiction; vm_compute in L; injection L as <- <-; lia.
  - intros i j s t (s1 & t1 & L1 & E1) (s2 & t2 & L2 & E2) NZ.
    pose proof (ex5rs_top _ _ _ L1) as T1. pose proof (ex5rs_top _ _ _ L2) as T2.
    each_index T1; each_index T2; try reflexivity; exfalso;
      vm_compute in L1, L2; injection L1 as <- <-; injection L2 as <- <-; vm_compute in E1, E2;
      destruct E1 as [-> ->], E2 as [E2 E3]; try discriminate; apply NZ; reflexivity.
Qed.
(** A usage that is the new link itself: afterwards it refers to itself but cannot be found,
    the usages of the new link cannot be counted (the call panics), and the queries for the
    old source still count it. *)
Lemma L_C57_split_rebase_refuted : exists st d st', s_hist ex_cf ref_tree_ops ref_list_ops st d /\
  distinct_pairs ex_S st /\ is_link ex_S st 1 1 1 /\ is_link ex_S st 2 1 2 /\
  d_rebase ex_cf ex_S 1 2 st = Val (st', Ok 2) /\ is_link ex_S st' 2 2 2 /\
  d_search ex_cf ex_S st' 2 2 = Val None /\ d_count_usages ex_cf ex_S st' 2 = Panic /\
  s_count ex_cf st' [200; 2; 200] = Val 0.
Proof.
  set (l := [Cr; Cr; Up 1 1 1; Up 2 1 2]).
  destruct (ex_sreach l) as (d & HH & K); [vm_compute; reflexivity..|].
  exists (ex_sst l), d, (match d_rebase ex_cf ex_S 1 2 (ex_sst l) with Val (s, _) => s | _ => ex_sstart end).
  sp. split; [apply ex_sdistinct; vm_compute; reflexivity|]. conj; vm_compute; reflexivity.
Qed.
