(** Properties of the two-memory store, stated on its histories (proofs; the statements
    are repeated in PropSplit.v). *)
From Coq Require Import NArith List Bool Lia Permutation Sorted.
From Verif Require Import Base Trees Lists Spec Iface UnitModel UnitInv UnitOps UnitLinks LinkModel SplitModel Forest
  SplitInv SplitReads SplitOps SplitWrites SplitLinks Doublets Obs DoubletsOK Hist Claims TreeImpl UnitHist SplitHist.
Import ListNotations.
Open Scope N_scope.

Ltac sp := split; [solve [auto]|].
Ltac conj := repeat match goal with |- _ /\ _ => split end.
Ltac sopen a K D :=
  match goal with
  | ENV : unit_env ?cf ?tops ?lops, HH : s_hist ?cf ?tops ?lops ?st ?d |- _ =>
      destruct (s_hist_inv cf tops lops ENV st d HH) as (a & K & D)
  end.

(** Some link has a source that is not a link. *)
Definition outer_source {S} (I : LinksI S) (st : S) : Prop :=
  exists x s t, is_link I st x s t /\ s <> 0 /\ no_link I st s.
Definition no_hole {S} (I : LinksI S) (st : S) : Prop := forall k, ~ hole I st k.

(** Queries with a wildcard index that do not mention the null reference. *)
Definition plain_query (any : N) (q : list N) : Prop :=
  match q with
  | [i; v] => i = any -> v <> 0
  | [i; s; t] => i = any -> s <> 0 /\ t <> 0
  | _ => True
  end.

(** Queries for which count_by of this store is right. *)
Definition countable {S} (any : N) (I : LinksI S) (st : S) (q : list N) : Prop :=
  match q with
  | [] | [_] => True
  | [i; v] =>
      v = any \/
      (i = any /\ v <> 0 /\ (linked I st v \/ no_hole I st \/ outer_source I st)) \/
      (i <> any /\ forall s t, is_link I st i s t -> (s = v <-> t = v))
  | [i; s; t] =>
      i <> any \/
      (s <> 0 /\ t <> 0 /\
       (s = any \/ linked I st s \/
        ((no_hole I st \/ outer_source I st) /\ (t = any \/ forall x s' t', is_link I st x s' t' -> s' <> s))))
  | _ => False
  end.

Section Aux.
  Variables (cf : cfg) (tops : tree_ops) (lops : list_ops).
  Hypothesis ENV : unit_env cf tops lops.
  Notation SL := (split_links cf tops lops).
  Notation any := (c_any cf).
  Let CF : cfg_ok cf := f_cf cf tops lops ENV.
  Let OK : links_ok cf (split_spec cf) SL (srep cf) := f_ok cf tops lops ENV.

  Lemma ob_nohole st a : srep cf st a -> no_hole SL st <-> a_free a = [].
  Proof.
    intros K. unfold no_hole. setoid_rewrite (ob_hole cf _ SL _ OK _ _ _ K). split.
    - intros N. destruct (a_free a) as [|x l]; auto. exfalso. apply (N x). now left.
    - intros -> k []. 
  Qed.
  Lemma ob_outer st a : srep cf st a -> outer_source SL st <-> extsrc a.
  Proof.
    intros K. unfold outer_source, extsrc. setoid_rewrite (ob_link cf _ SL _ OK _ _ _ _ _ K).
    setoid_rewrite (ob_none cf _ SL _ OK _ _ _ K). tauto.
  Qed.

  Lemma plain_each a q : (length q <= 3)%nat -> plain_query any q -> each_q cf a q.
  Proof.
    intros LQ P. destruct q as [|i [|s [|t [|? ?]]]]; cbn [each_q plain_query length] in *; auto; try lia.
  Qed.
  Lemma countable_count st a q : srep cf st a -> 2 * c_iend cf <= c_tmax cf -> countable any SL st q -> count_q cf a q.
  Proof.
    intros K DB C. pose proof (lo_iend _ _ _ _ OK _ _ K) as LE.
    destruct q as [|i [|s [|t [|? ?]]]]; cbn [count_q countable] in *; auto.
    - destruct C as [C|[(-> & V0 & C)|(NI & C)]]; [auto| |].
      + right. rewrite N.eqb_refl. split; [congruence|]. split; [|lia]. intros M.
        rewrite (ob_linked cf _ SL _ OK _ _ _ K), (ob_nohole _ _ K), (ob_outer _ _ K) in C. tauto.
      + right. destruct (N.eqb_spec i any); [contradiction|]. intros s0 t0 M. apply C.
        now apply (ob_link cf _ SL _ OK _ _ _ _ _ K).
    - intros E. destruct C as [C|(S0 & T0 & C)]; [contradiction|]. split; [congruence|]. split; [congruence|].
      intros SA M. rewrite (ob_linked cf _ SL _ OK _ _ _ K), (ob_nohole _ _ K), (ob_outer _ _ K) in C.
      destruct C as [C|[C|(C1 & C2)]]; [contradiction|contradiction|]. split; auto.
      destruct C2 as [C2|C2]; auto. right. intros x s' t' MX. apply (C2 x s' t').
      now apply (ob_link cf _ SL _ OK _ _ _ _ _ K).
  Qed.

  Lemma s_total_count st a sP tP : smem cf st a sP tP -> awf a -> li_count SL st [] = Val (N.of_nat (length (alinks a))).
  Proof. intros R W. cbn. eapply s_total_ok; eauto. Qed.

  (** A correct sequence of visits, observably. *)
  Lemma visits_match st a q L : srep cf st a -> (length q <= 3)%nat -> ~ null_query any q -> ~ end_query any q ->
    (pair_query any q -> one_match any SL st q) -> visits_ok any q a L ->
    NoDup L /\ forall l, In l L <-> li_get SL st (l_index l) = Val (Some l) /\ query_match any q l.
  Proof.
    intros HR LQ NQ EQ DP VO. pose proof (lo_wf _ _ _ _ OK _ _ HR) as W.
    assert (OL : forall l, li_get SL st (l_index l) = Val (Some l) <-> a_map a (l_index l) = Some (l_source l, l_target l)).
    { intros [i s t]. apply (ob_link cf _ SL _ OK _ _ _ _ _ HR). }
    setoid_rewrite OL. setoid_rewrite <- (in_avisits cf CF a q _ W LQ NQ).
    unfold visits_ok in VO. destruct (is_search any q) eqn:SQ.
    - destruct q as [|i [|s [|t [|? ?]]]]; try discriminate. cbn [is_search] in SQ.
      apply andb_true_iff in SQ as [SQ S3]. apply andb_true_iff in SQ as [S1 S2].
      apply N.eqb_eq in S1. apply negb_true_iff, N.eqb_neq in S2, S3. subst i.
      destruct VO as [[-> VO]|(l & -> & VO)].
      + rewrite VO. split; [constructor|]. intros l. simpl. tauto.
      + split; [constructor; [simpl; tauto|constructor]|].
        assert (S0 : s <> 0). { intros ->. apply NQ. cbn. auto. }
        intros k. simpl. split; [intros [<-|[]]; auto|]. intros KK. left.
        apply (in_avisits cf CF a _ _ W LQ NQ) in VO as [V1 V2], KK as [K1 K2].
        apply DP; [cbn; auto|now apply OL|auto|now apply OL|auto].
    - destruct VO as (P & _). split.
      + eapply Permutation_NoDup; [symmetry; exact P|]. now apply nodup_avisits.
      + intros l. split; apply Permutation_in; auto. now symmetry.
  Qed.

  (** The state after a creation shows one new link, even where the trees are off. *)
  Lemma creates_smem st a st2 : srep cf st a -> ~ a_full cf a -> smem cf st2 (a_create a) (spl a) (tpl a) ->
    creates cf SL st st2 (a_next a).
  Proof.
    intros K NF K'. pose proof (lo_wf _ _ _ _ OK _ _ K) as W. pose proof K as [(R & _ & V) _].
    assert (W2 : awf (a_create a)) by now apply awf_create.
    assert (GE : forall i, s_get_link cf st2 i = Val (olink i (a_map (a_create a) i))).
    { intros i. eapply s_get_link_ok; eauto. now apply all_placed_create, all_placed_tpl. }
    split; [eapply (awf_next_iend cf _ SL _ OK); eauto|]. split; [apply (ob_none cf _ SL _ OK _ _ _ K), a_next_none; auto|].
    split. { unfold is_link. cbn [li_get split_links]. now rewrite GE, a_create_map, upd_same. }
    split. { intros j J. cbn [li_get split_links]. rewrite GE, a_create_map, upd_other by auto. symmetry. apply (lo_get _ _ _ _ OK _ _ j K). }
    exists (N.of_nat (length (alinks a))). rewrite (s_total_count _ _ _ _ R W). split; auto.
    rewrite (s_total_count _ _ _ _ K' W2). f_equal.
    rewrite (len_add a (a_create a) (a_next a)); [lia|auto|auto| | |].
    - intros j J. rewrite a_create_map. now apply upd_other.
    - now apply a_next_none.
    - rewrite a_create_map, upd_same. discriminate.
  Qed.

  (** Everything a creation can do. *)
  Lemma s_create_obs st a d q : s_hist cf tops lops st d -> srep cf st a ->
    (~ range_full cf SL st /\ no_hole SL st /\ c_tmax cf < c_iend cf + 1 + c_step cf /\
       forall H (h : whandler H) x, s_create cf tops lops h q st x = Panic) \/
    (range_full cf SL st /\ fails_with (fun H h x => s_create cf tops lops h q st x) st (LimitReached (c_iend cf))) \/
    (~ range_full cf SL st /\ no_hole SL st /\ exists st', s_hist cf tops lops st' d /\ same_links SL st st' /\
       li_count SL st' [] = li_count SL st [] /\
       fails_with (fun H h x => s_create cf tops lops h q st x) st' AllocFailed) \/
    (~ range_full cf SL st /\ exists st', creates cf SL st st' (a_next a) /\
       smem cf st' (a_create a) (spl a) (tpl a) /\
       (unreferred SL st (a_next a) -> s_hist cf tops lops st' d) /\
       calls_once (fun H h x => s_create cf tops lops h q st x) st' nothing (mkLink (a_next a) 0 0)).
  Proof.
    intros HH K. pose proof (lo_wf _ _ _ _ OK _ _ K) as W. pose proof ENV as (_ & _ & LOK).
    pose proof (lo_iend _ _ _ _ OK _ _ K) as LE.
    rewrite (ob_full cf _ SL _ OK _ _ K), (ob_nohole _ _ K).
    destruct (s_create_ok cf CF tops lops LOK st a q K) as
      [(c & _ & (G1 & G2 & _) & NR & P)|[[F1 F]|[(NF & FR & st2 & K' & F)|(NF & st2 & K' & O & C)]]].
    - left. split; [unfold a_full; intros [_ X]; lia|]. split; auto. split; auto. unfold room in NR. lia.
    - right; left. auto.
    - right; right; left. split; auto. split; auto. exists st2.
      assert (SM : same_links SL st st2) by (intros j; apply (ob_get cf _ SL _ OK _ _ _ _ K K'); reflexivity).
      split; [|split; [auto|split; auto]].
      + apply (histc_create _ _ _ _ _ _ st d unit cont q tt st2 tt (Err AllocFailed)); [exact HH|apply F|].
        intros i N1 (s & t & N2). unfold no_link, is_link in *.
        pose proof (SM i : li_get SL st2 i = li_get SL st i). congruence.
      + destruct K as [(R & _) _], K' as [(R' & _) _]. rewrite (s_total_count _ _ _ _ R W). now apply (s_total_count _ _ _ _ R').
    - right; right; right. split; auto. exists st2. pose proof K as [(R & _ & V) _].
      assert (W2 : awf (a_create a)) by now apply awf_create.
      assert (GE : forall i, s_get_link cf st2 i = Val (olink i (a_map (a_create a) i))).
      { intros i. eapply s_get_link_ok; eauto. now apply all_placed_create, all_placed_tpl. }
      split; [|split; [exact K'|split; [|exact C]]].
      + now apply (creates_smem st a st2).
      + intros UR. apply (histc_create _ _ _ _ _ _ st d unit cont q tt st2 tt (Ok Continue)); [exact HH|apply C|].
        intros i N1 (s & t & N2). destruct (N.eq_dec i (a_next a)) as [->|NE]; auto. exfalso.
        unfold no_link, is_link in *. cbn [li_get split_links] in *. rewrite GE, a_create_map, upd_other in N2 by auto.
        apply (ob_none cf _ SL _ OK _ _ _ K) in N1. rewrite N1 in N2. discriminate.
  Qed.
End Aux.

(** * C25, C14, C15 *)
(** The link is changed, the rest is not; the handler is told the old and the new link. *)
Lemma L_C25_update cf tops lops st d q ch i os ot s t :
  let SL := split_links cf tops lops in
  unit_env cf tops lops -> s_hist cf tops lops st d ->
  is_link SL st i os ot -> s_oku SL st i s t ->
  qget q 0 = Val i -> qget ch 1 = Val s -> qget ch 2 = Val t ->
  exists st', s_hist cf tops lops st' d /\
    calls_once (fun H h x => s_update cf tops h q ch st x) st' (mkLink i os ot) (mkLink i s t) /\
    is_link SL st' i s t /\ frame SL st st' i /\ s_count cf st' [] = s_count cf st [].
Proof.
  intros SL ENV HH LI OU Q1 Q2 Q3. sopen a K D. pose proof (f_ok _ _ _ ENV) as OK. pose proof ENV as (CF & TOK & _).
  apply (ob_link cf _ SL _ OK _ _ _ _ _ K) in LI as M. assert (MN : a_map a i <> None) by congruence.
  pose proof OU as OU'. apply (ob_oku _ _ _ ENV _ _ _ _ _ K MN) in OU'.
  destruct K as [K O].
  destruct (s_update_ok cf CF tops TOK st a q ch i os ot s t K Q1 Q2 Q3 M OU') as (st' & K' & (_ & _ & O') & C).
  assert (KK : srep cf st a) by (split; auto).
  assert (KK' : srep cf st' (a_update a i s t)) by (split; [auto|now rewrite O']).
  exists st'. split; [|split; [auto|split; [|split]]].
  - apply (histc_update _ _ _ _ _ _ st d unit cont q ch i s t tt st' tt (Ok Continue)); auto. apply C.
  - apply (ob_link cf _ SL _ OK _ _ _ _ _ KK'). cbn. apply upd_same.
  - eapply (ob_frame cf _ SL _ OK); eauto. reflexivity.
  - destruct K as (R & W & _), K' as (R' & W' & _).
    pose proof (s_total_count cf tops lops st a _ _ R W) as C1. pose proof (s_total_count cf tops lops st' _ _ _ R' W') as C2.
    cbn [li_count split_links] in C1, C2. rewrite C1, C2. f_equal. f_equal.
    pose proof (alinks_count_wf _ W). pose proof (alinks_count_wf _ W'). cbn [a_update a_free a_top] in *. lia.
Qed.
Lemma L_C25_update_nonvacuous : exists st d, s_hist ex_cf ref_tree_ops ref_list_ops st d /\
  is_link ex_S st 3 2 1 /\ s_oku ex_S st 3 1 7 /\ is_link ex_S st 1 1 1.
Proof.
  destruct ex3_sreach as (d & HH & DP & L1 & _ & L3). exists (ex_sst ex3), d. sp. sp. split; [|auto].
  right. split; [now apply distinct_separable|]. split; [discriminate|]. intros [E|E]; discriminate.
Qed.

(** The C14 claim holds of this store. *)
Lemma L_C14_split_update_before cf tops lops st d i os ot s t :
  let SL := split_links cf tops lops in
  unit_env cf tops lops -> s_hist cf tops lops st d ->
  is_link SL st i os ot -> s_oku SL st i s t ->
  exists st', is_link SL st' i s t /\
    calls_once (fun H h x => s_update cf tops h [i] [i; s; t] st x) st' (mkLink i os ot) (mkLink i s t).
Proof.
  intros SL ENV HH LI OU.
  destruct (L_C25_update cf tops lops st d [i] [i; s; t] i os ot s t ENV HH LI OU) as (st' & _ & C & L & _); auto.
  exists st'. auto.
Qed.
Lemma L_C14_split_nonvacuous : exists st d, s_hist ex_cf ref_tree_ops ref_list_ops st d /\
  match s_update ex_cf ref_tree_ops (fun v b a => (v ++ [(b, a)], Continue)) [3] [3; 1; 7] st [] with
  | Val (_, v, r) => v = [(mkLink 3 2 1, mkLink 3 1 7)] /\ r = Ok Continue | _ => False end.
Proof. destruct ex3_sreach as (d & HH & _). exists (ex_sst ex3), d. sp. vm_compute. auto. Qed.

Lemma L_C25_delete cf tops lops st d q i s t :
  let SL := split_links cf tops lops in
  unit_env cf tops lops -> s_hist cf tops lops st d ->
  is_link SL st i s t -> s_okd SL st i -> qget q 0 = Val i ->
  exists st', s_hist cf tops lops st' (i :: d) /\
    calls_once (fun H h x => s_delete cf tops lops h q st x) st' (mkLink i s t) nothing /\
    no_link SL st' i /\ frame SL st st' i /\
    exists n, s_count cf st [] = Val (n + 1) /\ s_count cf st' [] = Val n.
Proof.
  intros SL ENV HH LI OD Q. sopen a K D. pose proof (f_ok _ _ _ ENV) as OK. pose proof ENV as (CF & TOK & LOK).
  apply (ob_link cf _ SL _ OK _ _ _ _ _ K) in LI as M. assert (MN : a_map a i <> None) by congruence.
  pose proof OD as OD'. apply (ob_okd _ _ _ ENV _ _ _ K MN) in OD'.
  destruct (lo_delete _ _ _ _ OK _ _ _ _ _ _ K Q M OD') as (st' & K' & C).
  exists st'. split; [|split; [exact C|split; [|split]]].
  - apply (histc_delete _ _ _ _ _ _ st d unit cont q i tt st' tt Continue); auto. apply C.
  - apply (ob_none cf _ SL _ OK _ _ _ K'). rewrite a_delete_map. apply upd_same.
  - eapply (ob_frame cf _ SL _ OK); eauto. apply Spec.a_delete_map.
  - exists (N.of_nat (length (alinks (a_delete a i)))).
    destruct K as [(R & W & _) _], K' as [(R' & W' & _) _].
    pose proof (s_total_count cf tops lops st a _ _ R W) as C1. pose proof (s_total_count cf tops lops st' _ _ _ R' W') as C2.
    cbn [li_count split_links] in C1, C2. rewrite C1, C2. split; auto. f_equal.
    rewrite (len_add (a_delete a i) a i); auto; [lia| |].
    + intros j J. rewrite a_delete_map. symmetry. now apply upd_other.
    + rewrite a_delete_map. apply upd_same.
Qed.
Lemma L_C25_delete_nonvacuous : exists st d, s_hist ex_cf ref_tree_ops ref_list_ops st d /\
  is_link ex_S st 1 1 1 /\ s_okd ex_S st 1 /\ is_link ex_S st 2 1 2 /\ is_link ex_S st 3 2 1.
Proof.
  destruct ex3_sreach as (d & HH & DP & L1 & L2 & L3). exists (ex_sst ex3), d. sp. sp. split; [|auto]. now apply s_okd_distinct.
Qed.

Lemma L_C25_missing_links cf tops lops st d q ch i s t :
  let SL := split_links cf tops lops in
  unit_env cf tops lops -> s_hist cf tops lops st d -> no_link SL st i ->
  qget q 0 = Val i -> qget ch 1 = Val s -> qget ch 2 = Val t ->
  fails_with (fun H h x => s_update cf tops h q ch st x) st (NotExists i) /\
  fails_with (fun H h x => s_delete cf tops lops h q st x) st (NotExists i).
Proof.
  intros SL ENV HH NL Q1 Q2 Q3. sopen a K D. pose proof (f_ok _ _ _ ENV) as OK.
  apply (ob_none cf _ SL _ OK _ _ _ K) in NL. split.
  - exact (lo_update_none _ _ _ _ OK _ _ _ _ _ _ _ K Q1 Q2 Q3 NL).
  - exact (lo_delete_none _ _ _ _ OK _ _ _ _ K Q1 NL).
Qed.
Lemma L_C25_missing_nonvacuous : exists st d, s_hist ex_cf ref_tree_ops ref_list_ops st d /\
  no_link ex_S st 4 /\ no_link ex_S st 7 /\ is_link ex_S st 3 2 4.
Proof.
  destruct ex4h_sreach as (d & HH & _ & N4 & L3 & _). exists (ex_sst ex4h), d. sp. sp. split; [vm_compute; reflexivity|auto].
Qed.

(** Creation: exactly one of four outcomes; in the last one the state is again one of the
    discipline if the index is not referred to. *)
Lemma L_C25_create cf tops lops st d q :
  let SL := split_links cf tops lops in
  unit_env cf tops lops -> c_iend cf + 1 + c_step cf <= c_tmax cf -> s_hist cf tops lops st d ->
  (range_full cf SL st /\ fails_with (fun H h x => s_create cf tops lops h q st x) st (LimitReached (c_iend cf))) \/
  (~ range_full cf SL st /\ no_hole SL st /\ exists st', s_hist cf tops lops st' d /\ same_links SL st st' /\
     s_count cf st' [] = s_count cf st [] /\
     fails_with (fun H h x => s_create cf tops lops h q st x) st' AllocFailed) \/
  (~ range_full cf SL st /\ exists i st', creates cf SL st st' i /\
     (unreferred SL st i -> s_hist cf tops lops st' d) /\
     calls_once (fun H h x => s_create cf tops lops h q st x) st' nothing (mkLink i 0 0) /\
     ((exists later earlier, d = later ++ i :: earlier /\ hole SL st i /\ (forall k, In k later -> ~ hole SL st k)) \/
      (no_hole SL st /\ (forall k, linked SL st k -> k < i) /\ (i = 1 \/ linked SL st (i - 1))))).
Proof.
  intros SL ENV RM HH. sopen a K D.
  destruct (s_create_obs cf tops lops ENV st a d q HH K) as [(_ & _ & TM & _)|[F|[(N1 & N2 & st' & N3 & N4 & N5 & N6)|(N1 & st' & N2 & _ & N3 & N4)]]].
  - exfalso. lia.
  - left. exact F.
  - right; left. split; auto. split; auto. exists st'. auto.
  - right; right. split; auto. exists (a_next a), st'. split; auto. split; auto. split; auto.
    exact (g_next cf _ SL _ (f_ok _ _ _ ENV) st a d K D).
Qed.
Lemma L_C25_create_nonvacuous : c_iend ex_cf + 1 + c_step ex_cf <= c_tmax ex_cf /\
  exists st d st', s_hist ex_cf ref_tree_ops ref_list_ops st d /\ is_link ex_S st 2 0 0 /\ unreferred ex_S st 1 /\
    s_create ex_cf ref_tree_ops ref_list_ops (fun _ _ l => (l, Continue)) [] st nothing = Val (st', mkLink 1 0 0, Ok Continue).
Proof.
  split; [cbn; lia|]. set (l := [Cr; Cr; De 1]).
  destruct (ex_sreach l) as (d & HH & K); [vm_compute; reflexivity..|].
  exists (ex_sst l), d.
  exists (match s_create ex_cf ref_tree_ops ref_list_ops (fun _ _ l => (l, Continue)) [] (ex_sst l) nothing with
          Val (s, _, _) => s | _ => ex_sstart end).
  sp. split; [vm_compute; reflexivity|]. split; [|vm_compute; reflexivity].
  apply (ob_unref _ _ _ ex_env _ _ _ K). apply unrefb_ok; [apply K|vm_compute; reflexivity].
Qed.

Lemma L_C25_count_and_each_all cf tops lops st d q :
  let SL := split_links cf tops lops in let any := c_any cf in
  unit_env cf tops lops -> s_hist cf tops lops st d ->
  q = [] \/ q = [any] \/ q = [any; any] \/ q = [any; any; any] ->
  exists L, all_links SL st L /\ s_count cf st q = Val (N.of_nat (length L)) /\
    forall H (h : rhandler H) x, s_each cf h q st x = Val (run_handler h L x).
Proof.
  intros SL any ENV HH Q. sopen a K D. pose proof (f_ok _ _ _ ENV) as OK. pose proof (any0 cf (f_cf _ _ _ ENV)) as A0. fold any in A0.
  exists (alinks a). split; [exact (ob_all cf _ SL _ OK _ _ K)|].
  assert (SQ : sp_query (split_spec cf) a q).
  { cbn [sp_query split_spec]. destruct Q as [->|[->|[->| ->]]]; cbn; fold any; auto; split; auto; tauto. }
  destruct (lo_query _ _ _ _ OK _ _ _ K SQ) as (L & V & E & C).
  assert (L = alinks a) as ->.
  { unfold visits_ok in V. fold any in V.
    assert (is_search any q = false) as SF.
    { destruct Q as [->|[->|[->| ->]]]; cbn; auto. now rewrite N.eqb_refl. }
    rewrite SF in V. destruct V as (_ & V & _). apply V.
    destruct Q as [->|[->|[->| ->]]]; cbn; now rewrite ?N.eqb_refl. }
  split; auto.
Qed.
Lemma L_C25_all_nonvacuous : exists st d, s_hist ex_cf ref_tree_ops ref_list_ops st d /\ s_count ex_cf st [] = Val 4 /\
  s_each ex_cf (fun v l => (v ++ [l_index l], Continue)) [] st [] = Val ([1; 2; 3; 5], Continue).
Proof. destruct ex4h_sreach as (d & HH & _). exists (ex_sst ex4h), d. sp. split; vm_compute; reflexivity. Qed.

Lemma L_C25_no_panic cf tops lops st d :
  let SL := split_links cf tops lops in
  unit_env cf tops lops -> c_iend cf + 1 + c_step cf <= c_tmax cf -> 2 * c_iend cf <= c_tmax cf ->
  s_hist cf tops lops st d ->
  (forall i, returns (s_get_link cf st i)) /\
  (forall q, countable (c_any cf) SL st q -> returns (s_count cf st q)) /\
  (forall H (h : rhandler H) q x, (length q <= 3)%nat -> plain_query (c_any cf) q -> returns (s_each cf h q st x)) /\
  (forall H (h : whandler H) q x, returns (s_create cf tops lops h q st x)) /\
  (forall H (h : whandler H) q ch x i s t, s_oku SL st i s t ->
     qget q 0 = Val i -> qget ch 1 = Val s -> qget ch 2 = Val t -> returns (s_update cf tops h q ch st x)) /\
  (forall H (h : whandler H) q x i, s_okd SL st i ->
     qget q 0 = Val i -> returns (s_delete cf tops lops h q st x)).
Proof.
  intros SL ENV RM DB HH. sopen a K D. pose proof (f_ok _ _ _ ENV) as OK. pose proof (f_cf _ _ _ ENV) as CF.
  assert (LK : forall i, no_link SL st i \/ exists s t, is_link SL st i s t).
  { intros i. rewrite (ob_none cf _ SL _ OK _ _ _ K). destruct (a_map a i) as [[s t]|] eqn:E; [right|auto].
    exists s, t. now apply (ob_link cf _ SL _ OK _ _ _ _ _ K). }
  conj.
  - intros i. pose proof (lo_get _ _ _ _ OK _ _ i K) as E. cbn in E. rewrite E. eexists; reflexivity.
  - intros q C. eexists. apply (s_count_ok cf CF st a (proj1 K)). eapply countable_count; eauto.
  - intros H h q x LQ P. destruct (s_each_ok cf CF st a (proj1 K) q (plain_each cf a q LQ P)) as (L & _ & E).
    eexists. apply E.
  - intros H h q x.
    destruct (L_C25_create cf tops lops st d q ENV RM HH) as [[_ F]|[(_ & _ & st' & _ & _ & _ & F)|(_ & i & st' & _ & _ & F & _)]];
      specialize (F H h x); cbn in F; rewrite F; eexists; reflexivity.
  - intros H h q ch x i s t C Q1 Q2 Q3. destruct (LK i) as [NL|(s0 & t0 & LI)].
    + destruct (L_C25_missing_links cf tops lops st d q ch i s t ENV HH NL Q1 Q2 Q3) as [F _].
      specialize (F H h x). cbn in F. rewrite F. eexists; reflexivity.
    + destruct (L_C25_update cf tops lops st d q ch i s0 t0 s t ENV HH LI C Q1 Q2 Q3) as (st' & _ & F & _).
      specialize (F H h x). cbn in F. rewrite F. eexists; reflexivity.
  - intros H h q x i C Q. destruct (LK i) as [NL|(s0 & t0 & LI)].
    + destruct (L_C25_missing_links cf tops lops st d q [0; 0; 0] i 0 0 ENV HH NL Q eq_refl eq_refl) as [_ F].
      specialize (F H h x). cbn in F. rewrite F. eexists; reflexivity.
    + destruct (L_C25_delete cf tops lops st d q i s0 t0 ENV HH LI C Q) as (st' & _ & F & _).
      specialize (F H h x). cbn in F. rewrite F. eexists; reflexivity.
Qed.
Lemma L_C25_no_panic_nonvacuous : unit_env ex_cf ref_tree_ops ref_list_ops /\
  c_iend ex_cf + 1 + c_step ex_cf <= c_tmax ex_cf /\ 2 * c_iend ex_cf <= c_tmax ex_cf /\
  exists st d, s_hist ex_cf ref_tree_ops ref_list_ops st d /\ hole ex_S st 4 /\ is_link ex_S st 3 2 4.
Proof.
  split; [exact ex_env|]. split; [cbn; lia|]. split; [cbn; lia|].
  destruct (ex_sreach ex4h) as (d & HH & K); [vm_compute; reflexivity..|]. exists (ex_sst ex4h), d. sp.
  split; [|vm_compute; reflexivity]. apply (ob_hole ex_cf _ _ _ (f_ok _ _ _ ex_env) _ _ _ K). vm_compute. auto.
Qed.

Lemma L_C15_split_handlers_told_the_truth cf tops lops st d H (h : whandler H) q x st' x' r :
  let SL := split_links cf tops lops in
  unit_env cf tops lops -> s_hist cf tops lops st d ->
  (s_create cf tops lops h q st x = Val (st', x', r) ->
     match r with
     | Ok f => exists i, no_link SL st i /\ is_link SL st' i 0 0 /\ (x', f) = h x nothing (mkLink i 0 0)
     | Err _ => x' = x
     end) /\
  (forall i, qget q 0 = Val i -> s_okd SL st i -> s_delete cf tops lops h q st x = Val (st', x', r) ->
     match r with
     | Ok f => exists s t, is_link SL st i s t /\ no_link SL st' i /\ (x', f) = h x (mkLink i s t) nothing
     | Err _ => x' = x
     end).
Proof.
  intros SL ENV HH. sopen a K D. pose proof (f_ok _ _ _ ENV) as OK. split.
  - intros E.
    destruct (s_create_obs cf tops lops ENV st a d q HH K) as [(_ & _ & _ & P)|[[_ F]|[(_ & _ & st2 & _ & _ & _ & F)|(_ & st2 & C2 & _ & _ & C)]]].
    + rewrite P in E. discriminate.
    + rewrite F in E. injection E as _ <- <-. reflexivity.
    + rewrite F in E. injection E as _ <- <-. reflexivity.
    + rewrite C in E. injection E as <- <- <-. exists (a_next a). destruct C2 as (_ & C3 & C4 & _).
      split; auto. split; auto. now destruct (h x nothing (mkLink (a_next a) 0 0)).
  - intros i Q OD E. destruct (a_map a i) as [[s t]|] eqn:M.
    + assert (LI : is_link SL st i s t) by now apply (ob_link cf _ SL _ OK _ _ _ _ _ K).
      destruct (L_C25_delete cf tops lops st d q i s t ENV HH LI OD Q) as (st2 & _ & C & NL & _).
      rewrite C in E. injection E as <- <- <-. exists s, t. split; auto. split; auto.
      now destruct (h x (mkLink i s t) nothing).
    + assert (NL : no_link SL st i) by now apply (ob_none cf _ SL _ OK _ _ _ K).
      destruct (L_C25_missing_links cf tops lops st d q [0; 0; 0] i 0 0 ENV HH NL Q eq_refl eq_refl) as [_ F].
      rewrite F in E. injection E as _ <- <-. reflexivity.
Qed.
Lemma L_C15_split_nonvacuous : exists st d, s_hist ex_cf ref_tree_ops ref_list_ops st d /\
  match s_delete ex_cf ref_tree_ops ref_list_ops (fun l b a => (l ++ [(b, a)], Break)) [2] st [] with
  | Val (_, x', r) => x' = [(mkLink 2 1 2, nothing)] /\ r = Ok Break | _ => False end.
Proof. destruct ex4h_sreach as (d & HH & _). exists (ex_sst ex4h), d. sp. vm_compute; auto. Qed.

(** * C51 *)
Lemma L_C51_split_each_visits_matches cf tops lops st d q :
  let SL := split_links cf tops lops in
  unit_env cf tops lops -> s_hist cf tops lops st d ->
  (length q <= 3)%nat -> plain_query (c_any cf) q -> ~ end_query (c_any cf) q ->
  (pair_query (c_any cf) q -> one_match (c_any cf) SL st q) ->
  exists L, NoDup L /\
    (forall l, In l L <-> s_get_link cf st (l_index l) = Val (Some l) /\ query_match (c_any cf) q l) /\
    forall H (h : rhandler H) x, s_each cf h q st x = Val (run_handler h L x).
Proof.
  intros SL ENV HH LQ PQ EQ DP. sopen a K D. pose proof (f_cf _ _ _ ENV) as CF.
  destruct (s_each_ok cf CF st a (proj1 K) q (plain_each cf a q LQ PQ)) as (L & VO & E).
  assert (NQ : ~ null_query (c_any cf) q).
  { destruct q as [|i [|s [|t [|? ?]]]]; cbn [null_query plain_query] in *; try tauto. }
  destruct (visits_match cf tops lops ENV st a q L K LQ NQ EQ DP VO) as [ND M].
  exists L. split; auto.
Qed.
Lemma L_C51_nonvacuous : exists st d, s_hist ex_cf ref_tree_ops ref_list_ops st d /\ distinct_pairs ex_S st /\
  plain_query 200 [200; 200; 4] /\ ~ end_query 200 [200; 200; 4] /\
  s_each ex_cf (fun v l => (v ++ [l], Continue)) [200; 200; 4] st [] = Val ([mkLink 3 2 4], Continue) /\
  s_each ex_cf (fun v l => (v ++ [l_index l], Continue)) [200; 1; 200] st [] = Val ([1; 2], Continue).
Proof.
  destruct ex4h_sreach as (d & HH & DP & _). exists (ex_sst ex4h), d. sp. sp. split; [cbn; lia|]. split; [cbn; tauto|].
  split; vm_compute; reflexivity.
Qed.
(** A query for a pair shows one of the links with that pair, also where several have it. *)
Lemma L_C51_split_each_one_of_pair cf tops lops st d s t :
  let SL := split_links cf tops lops in
  unit_env cf tops lops -> s_hist cf tops lops st d -> plain_query (c_any cf) [c_any cf; s; t] ->
  s <> 0 -> s <> c_any cf -> t <> c_any cf ->
  (forall i, ~ is_link SL st i s t) /\
    (forall H (h : rhandler H) x, s_each cf h [c_any cf; s; t] st x = Val (x, Continue)) \/
  exists i, is_link SL st i s t /\
    forall H (h : rhandler H) x, s_each cf h [c_any cf; s; t] st x = Val (h x (mkLink i s t)).
Proof.
  intros SL ENV HH PQ S0 SA TA. sopen a K D. pose proof (f_cf _ _ _ ENV) as CF.
  destruct (s_each_ok cf CF st a (proj1 K) [c_any cf; s; t]) as (L & VO & E); [apply plain_each; [cbn; lia|exact PQ]|].
  destruct (g_pair cf CF _ SL _ (f_ok _ _ _ ENV) st a s t L K S0 SA TA VO) as [[-> M]|(i & -> & M)].
  - left. auto.
  - right. exists i. split; [exact M|]. intros H h x. rewrite E. cbn [run_handler].
    destruct (h x (mkLink i s t)) as [x' []]; reflexivity.
Qed.
Lemma L_C51_one_of_pair_nonvacuous : exists st d, s_hist ex_cf ref_tree_ops ref_list_ops st d /\
  plain_query 200 [200; 1; 2] /\ is_link ex_S st 2 1 2 /\ is_link ex_S st 4 1 2 /\
  (exists i, s_each ex_cf (fun v l => (v ++ [l], Continue)) [200; 1; 2] st [] = Val ([mkLink i 1 2], Continue)) /\
  s_each ex_cf (fun v l => (v ++ [l], Continue)) [200; 2; 2] st [] = Val ([], Continue).
Proof.
  destruct (ex_sreach ex4d) as (d & HH & _); [vm_compute; reflexivity..|]. exists (ex_sst ex4d), d. sp.
  split; [cbn; lia|]. split; [vm_compute; reflexivity|]. split; [vm_compute; reflexivity|].
  split; [eexists|]; vm_compute; reflexivity.
Qed.
(** Both ends: the links with source [v], then those with target [v]. *)
Lemma L_C51_split_each_either_end cf tops lops st d v :
  let SL := split_links cf tops lops in
  unit_env cf tops lops -> s_hist cf tops lops st d -> v <> 0 -> v <> c_any cf ->
  exists L1 L2, NoDup L1 /\ NoDup L2 /\
    (forall l, In l L1 <-> s_get_link cf st (l_index l) = Val (Some l) /\ l_source l = v) /\
    (forall l, In l L2 <-> s_get_link cf st (l_index l) = Val (Some l) /\ l_target l = v) /\
    forall H (h : rhandler H) x, s_each cf h [c_any cf; v] st x = Val (run_handler h (L1 ++ L2) x).
Proof.
  intros SL ENV HH V0 VA. sopen a K D. pose proof (f_cf _ _ _ ENV) as CF. pose proof (f_ok _ _ _ ENV) as OK.
  pose proof (lo_wf _ _ _ _ OK _ _ K) as W.
  destruct (s_each_ok cf CF st a (proj1 K) [c_any cf; v]) as (L & VO & E).
  { cbn. congruence. }
  unfold visits_ok in VO. cbn [is_search] in VO. destruct VO as (_ & _ & VO).
  destruct (VO v) as (L1 & L2 & -> & P1 & P2); auto.
  { cbn. rewrite N.eqb_refl. destruct (N.eqb_spec v (c_any cf)); [congruence|reflexivity]. }
  exists L1, L2.
  assert (OL : forall l, li_get SL st (l_index l) = Val (Some l) <-> In l (alinks a)).
  { intros [i s t]. cbn [l_index]. rewrite (in_alinks a i s t W). apply (ob_link cf _ SL _ OK _ _ _ _ _ K). }
  pose proof (nodup_alinks a) as ND.
  assert (GEN : forall LL f, Permutation LL (filter (fun l => f l =? v) (alinks a)) ->
    NoDup LL /\ forall l, In l LL <-> li_get SL st (l_index l) = Val (Some l) /\ f l = v).
  { intros LL f P. split.
    - eapply Permutation_NoDup; [symmetry; exact P|]. now apply NoDup_filter.
    - intros l. rewrite OL, <- N.eqb_eq. split.
      + intros Hl. apply (Permutation_in _ P) in Hl. now apply filter_In in Hl.
      + intros Hl. apply (Permutation_in _ (Permutation_sym P)). now apply filter_In. }
  destruct (GEN _ _ P1) as [N1 M1], (GEN _ _ P2) as [N2 M2]. exact (conj N1 (conj N2 (conj M1 (conj M2 E)))).
Qed.
Lemma L_C51_either_end_nonvacuous : exists st d, s_hist ex_cf ref_tree_ops ref_list_ops st d /\
  s_each ex_cf (fun v l => (v ++ [l_index l], Continue)) [200; 1] st [] = Val ([1; 2; 1; 5], Continue).
Proof. destruct ex4h_sreach as (d & HH & _). exists (ex_sst ex4h), d. sp. vm_compute; reflexivity. Qed.
(** A query for the null source once there are holes visits links that do not match. *)
Lemma L_C51_null_source_refuted : exists st d, s_hist ex_cf ref_tree_ops ref_list_ops st d /\
  distinct_pairs ex_S st /\ is_link ex_S st 2 0 0 /\ is_link ex_S st 3 0 0 /\
  s_each ex_cf (fun v l => (v ++ [l], Continue)) [200; 0; 200] st [] = Val ([mkLink 3 0 0], Continue).
Proof.
  set (l := [Cr; Cr; Cr; De 1]).
  destruct (ex_sreach l) as (d & HH & _); [vm_compute; reflexivity..|]. exists (ex_sst l), d. sp.
  split; [apply ex_sdistinct; vm_compute; reflexivity|]. repeat (split; [vm_compute; reflexivity|]). vm_compute; reflexivity.
Qed.

(** * C26 *)
Lemma L_C26_updated_link_readable_partial cf tops lops st d i s t :
  let SL := split_links cf tops lops in
  unit_env cf tops lops -> s_hist cf tops lops st d ->
  linked SL st i -> separable SL st i -> (t = 0 -> s = 0) -> (s = i \/ t = i -> exists ot, is_link SL st i 0 ot) ->
  exists st', d_update SL i s t st = Val (st', Ok i) /\ is_link SL st' i s t.
Proof.
  intros SL ENV HH LI SE TS SF. sopen a K D. pose proof (f_ok _ _ _ ENV) as OK.
  apply (ob_linked cf _ SL _ OK _ _ _ K) in LI.
  assert (OU : s_oku SL st i s t) by (right; auto). apply (ob_oku _ _ _ ENV _ _ _ _ _ K LI) in OU.
  destruct (d_update_with_ok cf _ SL _ OK st a i s t K LI OU) as (st' & b & K' & _ & E).
  exists st'. split; auto. apply (ob_link cf _ SL _ OK _ _ _ _ _ K'). cbn. apply upd_same.
Qed.
Lemma L_C26_partial_nonvacuous : exists st d, s_hist ex_cf ref_tree_ops ref_list_ops st d /\
  linked ex_S st 3 /\ separable ex_S st 3 /\ (7 = 0 -> 1 = 0) /\ is_link ex_S st 1 1 1.
Proof.
  destruct ex3_sreach as (d & HH & DP & L1 & _ & L3). exists (ex_sst ex3), d. sp. split; [exists 2, 1; auto|].
  split; [now apply distinct_separable|]. split; [discriminate|auto].
Qed.
(** A link updated to a source without target disappears, although still counted. *)
Lemma L_C26_updated_link_refuted : exists st d st', s_hist ex_cf ref_tree_ops ref_list_ops st d /\
  is_link ex_S st 1 0 0 /\ is_link ex_S st 2 0 0 /\
  d_update ex_S 1 2 0 st = Val (st', Ok 1) /\ no_link ex_S st' 1 /\
  s_count ex_cf st' [] = Val 2 /\
  s_each ex_cf (fun v l => (v ++ [l], Continue)) [] st' [] = Val ([mkLink 2 0 0], Continue).
Proof.
  set (l := [Cr; Cr]).
  destruct (ex_sreach l) as (d & HH & _); [vm_compute; reflexivity..|].
  exists (ex_sst l), d, (match d_update ex_S 1 2 0 (ex_sst l) with Val (s, _) => s | _ => ex_sstart end). sp.
  repeat (split; [vm_compute; reflexivity|]). vm_compute; reflexivity.
Qed.

(** * C27 *)
Lemma L_C27_count_equals_visits_partial cf tops lops st d q :
  let SL := split_links cf tops lops in
  unit_env cf tops lops -> 2 * c_iend cf <= c_tmax cf -> s_hist cf tops lops st d ->
  plain_query (c_any cf) q -> countable (c_any cf) SL st q ->
  exists n, s_count cf st q = Val n /\
    s_each cf (fun k _ => (k + 1, Continue)) q st 0 = Val (n, Continue).
Proof.
  intros SL ENV DB HH PQ CQ. sopen a K D. pose proof (f_ok _ _ _ ENV) as OK.
  assert (LQ : (length q <= 3)%nat) by (destruct q as [|? [|? [|? [|? ?]]]]; cbn in *; lia || tauto).
  destruct (lo_query _ _ _ _ OK _ _ q K) as (L & _ & E & C).
  { split; [now apply plain_each|]. eapply countable_count; eauto. }
  exists (N.of_nat (length L)). split; [exact C|].
  pose proof (E N (fun k _ => (k + 1, Continue)) 0) as E'. cbn [li_each split_links] in E'. rewrite E'.
  assert (G : forall l k, run_handler (fun k (_ : link) => (k + 1, Continue)) l k = (k + N.of_nat (length l), Continue)).
  { clear. induction l as [|x l IH]; intros k; cbn [run_handler length]; [now rewrite N.add_0_r|].
    rewrite IH. f_equal. lia. }
  rewrite G. reflexivity.
Qed.
Lemma L_C27_partial_nonvacuous : exists st d, s_hist ex_cf ref_tree_ops ref_list_ops st d /\
  plain_query 200 [200; 1; 200] /\ countable 200 ex_S st [200; 1; 200] /\
  s_count ex_cf st [200; 1; 200] = Val 2 /\ s_count ex_cf st [200; 1] = Val 4 /\ countable 200 ex_S st [200; 1].
Proof.
  destruct ex4h_sreach as (d & HH & DP & _). exists (ex_sst ex4h), d. sp. split; [cbn; lia|].
  assert (LI : linked ex_S (ex_sst ex4h) 1) by (exists 1, 1; vm_compute; reflexivity).
  split; [cbn [countable]; right; split; [lia|]; split; [lia|auto]|].
  split; [vm_compute; reflexivity|]. split; [vm_compute; reflexivity|].
  cbn [countable]. right; left. split; [reflexivity|]. split; [lia|auto].
Qed.
(** An exact pair [2, 1] counts links with both ends 1 instead of one. *)
Lemma L_C27_index_and_end_refuted : exists st d, s_hist ex_cf ref_tree_ops ref_list_ops st d /\ distinct_pairs ex_S st /\
  s_count ex_cf st [2; 1] = Val 0 /\
  s_each ex_cf (fun v l => (v ++ [l], Continue)) [2; 1] st [] = Val ([mkLink 2 1 2], Continue).
Proof.
  destruct ex3_sreach as (d & HH & DP & _). exists (ex_sst ex3), d. sp. sp. split; vm_compute; reflexivity.
Qed.
(** Counting the links with a source that is not a link, when there is none, returns the
    first unused index (here 3) instead of 0. *)
Lemma L_C27_outer_source_refuted : exists st d, s_hist ex_cf ref_tree_ops ref_list_ops st d /\ distinct_pairs ex_S st /\
  s_count ex_cf st [200; 1; 200] = Val 3 /\ s_count ex_cf st [200; 1] = Val 3 /\
  s_each ex_cf (fun v l => (v ++ [l], Continue)) [200; 1; 200] st [] = Val ([], Continue) /\
  s_each ex_cf (fun v l => (v ++ [l], Continue)) [200; 1] st [] = Val ([], Continue).
Proof.
  set (l := [Cr; Cr; Cr; Cr; De 1; De 2; De 3]).
  destruct (ex_sreach l) as (d & HH & _); [vm_compute; reflexivity..|]. exists (ex_sst l), d. sp.
  split; [apply ex_sdistinct; vm_compute; reflexivity|]. repeat (split; [vm_compute; reflexivity|]). vm_compute; reflexivity.
Qed.
(** Counting a pair whose source is not a link ignores the target. *)
Lemma L_C27_outer_pair_refuted : exists st d, s_hist ex_cf ref_tree_ops ref_list_ops st d /\ distinct_pairs ex_S st /\
  s_count ex_cf st [200; 5; 7] = Val 2 /\
  s_each ex_cf (fun v l => (v ++ [l], Continue)) [200; 5; 7] st [] = Val ([], Continue).
Proof.
  set (l := [Cr; Cr; Up 1 5 2; Up 2 5 1]).
  destruct (ex_sreach l) as (d & HH & _); [vm_compute; reflexivity..|]. exists (ex_sst l), d. sp.
  split; [apply ex_sdistinct; vm_compute; reflexivity|]. split; vm_compute; reflexivity.
Qed.

(** * C28 *)
(** As long as the index is not used again the dangling references are found. *)
Lemma L_C28_dangling_found_partial cf tops lops st d i x s t :
  let SL := split_links cf tops lops in
  unit_env cf tops lops -> s_hist cf tops lops st d -> no_link SL st i -> i <> 0 -> i <> c_any cf ->
  is_link SL st x s t ->
  (s = i -> exists L, In (mkLink x s t) L /\
     forall H (h : rhandler H) y, s_each cf h [c_any cf; i; c_any cf] st y = Val (run_handler h L y)) /\
  (t = i -> exists L, In (mkLink x s t) L /\
     forall H (h : rhandler H) y, s_each cf h [c_any cf; c_any cf; i] st y = Val (run_handler h L y)).
Proof.
  intros SL ENV HH NL I0 IA LI. pose proof (any0 cf (f_cf _ _ _ ENV)) as A0. split.
  - intros ->. destruct (L_C51_split_each_visits_matches cf tops lops st d [c_any cf; i; c_any cf] ENV HH) as (L & _ & M & E);
      [cbn; lia|cbn; auto|cbn; tauto|cbn; tauto|].
    exists L. split; auto. apply M. cbn [l_index query_match l_source l_target]. split; [exact LI|]. unfold part_match. auto.
  - intros ->. destruct (L_C51_split_each_visits_matches cf tops lops st d [c_any cf; c_any cf; i] ENV HH) as (L & _ & M & E);
      [cbn; lia|cbn; auto|cbn; tauto|cbn; tauto|].
    exists L. split; auto. apply M. cbn [l_index query_match l_source l_target]. split; [exact LI|]. unfold part_match. auto.
Qed.
Lemma L_C28_partial_nonvacuous : exists st d, s_hist ex_cf ref_tree_ops ref_list_ops st d /\
  no_link ex_S st 4 /\ is_link ex_S st 3 2 4.
Proof. destruct ex4h_sreach as (d & HH & _ & N4 & L3 & _). exists (ex_sst ex4h), d. auto. Qed.

(** Once it is used again none of them is found: queries by the new index visit nothing,
    whatever refers to it. *)
Lemma L_C28_dangling_always_lost cf tops lops st d H (h : whandler H) q x st' x' f i :
  let SL := split_links cf tops lops in
  unit_env cf tops lops -> s_hist cf tops lops st d ->
  s_create cf tops lops h q st x = Val (st', x', Ok f) -> no_link SL st i -> linked SL st' i ->
  (forall j s t, j <> i -> is_link SL st j s t -> is_link SL st' j s t) /\
  (forall H2 (h2 : rhandler H2) y, s_each cf h2 [c_any cf; i; c_any cf] st' y = Val (y, Continue)) /\
  (forall H2 (h2 : rhandler H2) y, s_each cf h2 [c_any cf; c_any cf; i] st' y = Val (y, Continue)).
Proof.
  intros SL ENV HH E NL LK. sopen a K D. pose proof (f_cf _ _ _ ENV) as CF. pose proof (f_ok _ _ _ ENV) as OK.
  pose proof (lo_wf _ _ _ _ OK _ _ K) as W. pose proof (any0 cf CF) as A0.
  destruct (s_create_obs cf tops lops ENV st a d q HH K) as [(_ & _ & _ & P)|[[_ F]|[(_ & _ & st2 & _ & _ & _ & F)|(NF & st2 & C2 & SM & _ & C)]]].
  - rewrite P in E. discriminate.
  - rewrite F in E. discriminate.
  - rewrite F in E. discriminate.
  - assert (st2 = st') as -> by (rewrite C in E; congruence). clear E C.
    destruct C2 as (RG & _ & C3 & FR & _).
    assert (i = a_next a) as ->.
    { destruct (N.eq_dec i (a_next a)) as [|NE]; auto. exfalso. destruct LK as (s & t & LK).
      unfold is_link, no_link in *. pose proof (FR i NE : li_get SL st' i = li_get SL st i). congruence. }
    destruct (a_next_none a W) as [MN N0]. pose proof (ok_iend _ CF) as IE.
    assert (TOP : a_next a <= a_top (a_create a)).
    { assert (X : a_map (a_create a) (a_next a) <> None) by (rewrite a_create_map, upd_same; discriminate).
      apply (wf_dom _ (awf_create _ W)) in X. lia. }
    assert (AP : all_placed (a_create a) (tpl a)).
    { apply all_placed_create, all_placed_tpl. apply K. }
    assert (VF : s_is_virtual st' (a_next a) = Val false).
    { rewrite (s_is_virtual_ok cf st' _ _ _ (a_next a) SM AP). f_equal. unfold isvirt.
      rewrite a_create_map, upd_same. destruct (N.eqb_spec (a_next a) 0); [contradiction|reflexivity]. }
    assert (SA : forall y, spl a y <> Int (a_next a)).
    { intros y Y. unfold spl in Y. destruct (a_map a y) as [[s t]|]; [|discriminate].
      apply place_of_int in Y as (-> & _ & Y). contradiction. }
    assert (TA : forall y, tpl a y <> Int (a_next a)).
    { intros y Y. unfold tpl in Y. destruct (a_map a y) as [[s t]|]; [|discriminate].
      apply place_of_int in Y as (-> & _ & Y). contradiction. }
    pose proof (s_is_virtual_ok cf st' _ _ _ (c_any cf) SM AP) as VA.
    split; [|split].
    + intros j s t J LJ. unfold is_link in *. pose proof (FR j J : li_get SL st' j = li_get SL st j). congruence.
    + intros H2 h2 y. destruct (s_is_walk cf st' _ _ _ (a_next a) SM N0 TOP) as (U & _ & U2 & U3 & _).
      assert (U = []) as ->.
      { destruct U as [|u U]; auto. exfalso. apply (SA u). apply U2. now left. }
      unfold s_each, qget. rewrite (ok_ipart _ CF), (ok_spart _ CF), (ok_tpart _ CF).
      change (N.to_nat 0) with 0%nat. change (N.to_nat 1) with 1%nat. change (N.to_nat 2) with 2%nat. cbn [nth_error obind].
      unfold s_each3. rewrite VF, VA. cbn [obind]. rewrite N.eqb_refl. destruct (N.eqb_spec (a_next a) (c_any cf)); [lia|]. cbn [andb].
      rewrite U3. reflexivity.
    + intros H2 h2 y. destruct (s_it_walk cf st' _ _ _ (a_next a) SM N0 TOP) as (U & _ & U2 & U3 & _).
      assert (U = []) as ->.
      { destruct U as [|u U]; auto. exfalso. apply (TA u). apply U2. now left. }
      unfold s_each, qget. rewrite (ok_ipart _ CF), (ok_spart _ CF), (ok_tpart _ CF).
      change (N.to_nat 0) with 0%nat. change (N.to_nat 1) with 1%nat. change (N.to_nat 2) with 2%nat. cbn [nth_error obind].
      unfold s_each3. rewrite VF, VA. cbn [obind]. rewrite N.eqb_refl. destruct (N.eqb_spec (a_next a) (c_any cf)); [lia|]. cbn [andb].
      rewrite U3. reflexivity.
Qed.

Lemma L_C28_dangling_refuted : exists st d st', s_hist ex_cf ref_tree_ops ref_list_ops st d /\ distinct_pairs ex_S st /\
  no_link ex_S st 2 /\ is_link ex_S st 1 2 3 /\ is_link ex_S st 3 1 2 /\
  d_create ex_S st = Val (st', Ok 2) /\ is_link ex_S st' 1 2 3 /\ is_link ex_S st' 3 1 2 /\
  s_each ex_cf (fun v l => (v ++ [l], Continue)) [200; 2; 200] st' [] = Val ([], Continue) /\
  s_each ex_cf (fun v l => (v ++ [l], Continue)) [200; 200; 2] st' [] = Val ([], Continue).
Proof.
  set (l := [Cr; Cr; Cr; Up 1 2 3; Up 3 1 2; De 2]).
  destruct (ex_sreach l) as (d & HH & _); [vm_compute; reflexivity..|].
  exists (ex_sst l), d, (match d_create ex_S (ex_sst l) with Val (s, _) => s | _ => ex_sstart end). sp.
  split; [apply ex_sdistinct; vm_compute; reflexivity|]. repeat (split; [vm_compute; reflexivity|]). vm_compute; reflexivity.
Qed.

(** * C29 *)
Lemma L_C29_self_reference_found_partial cf tops lops st d i ot t :
  let SL := split_links cf tops lops in
  unit_env cf tops lops -> s_hist cf tops lops st d ->
  is_link SL st i 0 ot -> separable SL st i -> t <> 0 ->
  exists st' L, d_update SL i i t st = Val (st', Ok i) /\ s_hist cf tops lops st' d /\ In (mkLink i i t) L /\
    forall H (h : rhandler H) y, s_each cf h [c_any cf; i; c_any cf] st' y = Val (run_handler h L y).
Proof.
  intros SL ENV HH LI SE T0. sopen a K D. pose proof (f_ok _ _ _ ENV) as OK. pose proof (f_cf _ _ _ ENV) as CF.
  apply (ob_link cf _ SL _ OK _ _ _ _ _ K) in LI as M. assert (MN : a_map a i <> None) by congruence.
  assert (OU : s_oku SL st i i t) by (right; split; auto; split; [congruence|eauto]).
  pose proof OU as OU'. apply (ob_oku _ _ _ ENV _ _ _ _ _ K MN) in OU'.
  destruct (L_C25_update cf tops lops st d [i] [i; i; t] i 0 ot i t ENV HH LI OU eq_refl eq_refl eq_refl)
    as (st' & HH' & C & L & _).
  assert (E : d_update SL i i t st = Val (st', Ok i)).
  { assert (C2 : calls_once (fun H h x => li_update SL H h [i] [i; i; t] st x) st' (mkLink i 0 ot) (mkLink i i t)) by exact C.
    unfold d_update, d_update_by, d_update_by_with. rewrite (wadapt_once _ _ _ _ _ _ _ _ C2). reflexivity. }
  destruct (exists_range cf _ SL _ OK st a i CF K MN) as (I0 & IA & _).
  pose proof (any0 cf CF) as A0.
  destruct (L_C51_split_each_visits_matches cf tops lops st' d [c_any cf; i; c_any cf] ENV HH') as (LL & _ & MM & EE);
    [cbn; lia|cbn; auto|cbn; tauto|cbn; tauto|].
  exists st', LL. split; auto. split; auto. split; auto. apply MM. cbn [l_index query_match l_source l_target].
  split; [exact L|]. unfold part_match. auto.
Qed.
Lemma L_C29_partial_nonvacuous : exists st d, s_hist ex_cf ref_tree_ops ref_list_ops st d /\
  is_link ex_S st 2 0 1 /\ separable ex_S st 2 /\ is_link ex_S st 1 1 1.
Proof.
  set (l := [Cr; Cr; Up 1 1 1; Up 2 0 1]).
  destruct (ex_sreach l) as (d & HH & _); [vm_compute; reflexivity..|]. exists (ex_sst l), d. sp.
  split; [vm_compute; reflexivity|]. split; [|vm_compute; reflexivity].
  apply distinct_separable, ex_sdistinct; vm_compute; reflexivity.
Qed.
Lemma L_C29_self_reference_refuted : exists st d st', s_hist ex_cf ref_tree_ops ref_list_ops st d /\ distinct_pairs ex_S st /\
  is_link ex_S st 1 2 1 /\ d_update ex_S 1 1 2 st = Val (st', Ok 1) /\ is_link ex_S st' 1 1 2 /\
  s_each ex_cf (fun v l => (v ++ [l], Continue)) [200; 1; 200] st' [] = Val ([], Continue) /\
  d_search ex_cf ex_S st' 1 2 = Val None.
Proof.
  set (l := [Cr; Cr; Up 1 2 1]).
  destruct (ex_sreach l) as (d & HH & _); [vm_compute; reflexivity..|].
  exists (ex_sst l), d, (match d_update ex_S 1 1 2 (ex_sst l) with Val (s, _) => s | _ => ex_sstart end). sp.
  split; [apply ex_sdistinct; vm_compute; reflexivity|]. repeat (split; [vm_compute; reflexivity|]). vm_compute; reflexivity.
Qed.

(** * C13 for this store *)
Lemma L_C13_split_reopen_partial cf tops lops st d top orc :
  let SL := split_links cf tops lops in
  let c := s_capacity cf top in
  unit_env cf tops lops -> s_hist cf tops lops st d -> both_or_none orc ->
  (forall i, linked SL st i -> i <= top) -> (top = 0 \/ linked SL st top) ->
  top < c_page cf \/ top < c_step cf \/ top mod c_step cf <> 0 -> c - 1 <= c_tmax cf ->
  orc 0%nat (c_page cf) (c_page cf) = Grown -> orc 1%nat c c = Grown ->
  exists st', s_open cf (s_persist st orc) = Val (Ok st') /\ s_hist cf tops lops st' d /\
    same_links SL st st' /\ s_count cf st' [] = s_count cf st [].
Proof.
  intros SL c ENV HH B LE LT MO TM O1 O2. sopen a K D. pose proof (f_ok _ _ _ ENV) as OK. pose proof (f_cf _ _ _ ENV) as CF.
  pose proof (lo_wf _ _ _ _ OK _ _ K) as W.
  assert (a_top a = top) as TA.
  { apply N.le_antisymm.
    - destruct (wf_top _ W) as [T|T]; [lia|]. apply LE. now apply (ob_linked cf _ SL _ OK _ _ _ K).
    - destruct LT as [->|LT]; [lia|]. now apply (ob_top cf _ SL _ OK _ _ K) in LT. }
  assert (TL : a_top a < s_capacity cf (a_top a)) by (apply (s_capacity_gt cf CF); rewrite TA; auto).
  assert (REO : forall st', s_open cf (s_persist st orc) = Val (Ok st') -> s_hist cf tops lops st' d).
  { intros st' E. apply (histc_reopen _ _ _ _ _ _ st d st'); auto. split; [|eauto].
    intros i LI MX. assert (i = top) as ->; [|auto].
    pose proof (LE i LI). destruct LT as [->|LT]; [apply (ob_top cf _ SL _ OK _ _ K) in LI; lia|]. apply MX in LT. lia. }
  destruct (s_open_ok cf CF (s_persist st orc) st a) as (st' & E & K' & _ & O); auto.
  - repeat split; auto.
  - apply K.
  - now rewrite TA.
  - rewrite TA. exact O2.
  - assert (KK : srep cf st' a) by (split; auto; rewrite O; now apply both_shift).
    exists st'. split; auto. split; auto. split; [intros j; now apply (ob_get cf _ SL _ OK _ _ _ _ K KK)|].
    destruct K as [(R & _) _], K' as (R' & _).
    pose proof (s_total_count cf tops lops st a _ _ R W) as C1. pose proof (s_total_count cf tops lops st' _ _ _ R' W) as C2.
    cbn [li_count split_links] in C1, C2. now rewrite C1, C2.
Qed.
Lemma L_C13_split_partial_nonvacuous : exists st d, s_hist ex_cf ref_tree_ops ref_list_ops st d /\
  (forall i, linked ex_S st i -> i <= 5) /\ linked ex_S st 5 /\ 5 < c_step ex_cf /\ hole ex_S st 4 /\
  s_capacity ex_cf 5 - 1 <= c_tmax ex_cf.
Proof.
  destruct (ex_sreach ex4h) as (d & HH & K); [vm_compute; reflexivity..|]. pose proof (f_ok _ _ _ ex_env) as OK.
  exists (ex_sst ex4h), d. sp. split.
  - intros i LI. apply (ob_top ex_cf _ _ _ OK _ _ K) in LI. vm_compute (a_top _) in LI. lia.
  - split; [exists 5, 1; vm_compute; reflexivity|]. split; [cbn; lia|].
    split; [apply (ob_hole ex_cf _ _ _ OK _ _ _ K); vm_compute; auto|]. vm_compute. discriminate.
Qed.
(** With exactly as many links as the step (here 8) the last link is out of reach. *)
Lemma L_C13_split_reopen_refuted : exists st d st', s_hist ex_cf ref_tree_ops ref_list_ops st d /\
  is_link ex_S st 8 0 0 /\ s_open ex_cf (s_persist st all_grown) = Val (Ok st') /\
  s_get_link ex_cf st' 8 = Panic /\ s_each ex_cf (fun n _ => (n + 1, Continue)) [] st' 0 = Panic.
Proof.
  set (l := [Cr; Cr; Cr; Cr; Cr; Cr; Cr; Cr]).
  destruct (ex_sreach l) as (d & HH & _); [vm_compute; reflexivity..|].
  exists (ex_sst l), d, (match s_open ex_cf (s_persist (ex_sst l) all_grown) with Val (Ok s) => s | _ => ex_sstart end).
  sp. repeat (split; [vm_compute; reflexivity|]). vm_compute; reflexivity.
Qed.

(** This is so for every store whose highest link is such a multiple. *)
Lemma L_C13_split_reopen_always_lost cf tops lops st d top orc st' :
  let SL := split_links cf tops lops in
  unit_env cf tops lops -> s_hist cf tops lops st d ->
  linked SL st top -> (forall i, linked SL st i -> i <= top) ->
  c_page cf <= top -> c_step cf <= top -> top mod c_step cf = 0 ->
  s_open cf (s_persist st orc) = Val (Ok st') ->
  s_get_link cf st' top = Panic /\
  forall H (h : rhandler H) x, (forall y l, snd (h y l) = Continue) -> s_each cf h [] st' x = Panic.
Proof.
  intros SL ENV HH LT LE PG ST MO E. sopen a K D.
  pose proof (f_ok _ _ _ ENV) as OK. pose proof (f_cf _ _ _ ENV) as CF.
  pose proof (lo_wf _ _ _ _ OK _ _ K) as W. pose proof (ok_step _ CF) as S0.
  assert (TA : a_top a = top).
  { apply N.le_antisymm; [|now apply (ob_top cf _ SL _ OK _ _ K) in LT].
    destruct (wf_top _ W) as [T|T]; [lia|]. apply LE. now apply (ob_linked cf _ SL _ OK _ _ _ K). }
  assert (IN : 1 <= top <= a_top a /\ ~ In top (a_free a)).
  { apply (wf_dom _ W). now apply (ob_linked cf _ SL _ OK _ _ _ K). }
  destruct K as [(R & _ & _) _]. pose proof (sm_alloc _ _ _ _ _ R) as AL. pose proof (sm_first _ _ _ _ _ R) as FI.
  assert (SH : s_ilen st' = top /\ s_dlen st' = top /\ s_dcap st' = top /\ sh_alloc st' = top /\ sh_first st' = hd 0 (a_free a)).
  { unfold s_open, s_alloc_mem in E. cbn [s_orc s_persist] in E.
    destruct (orc 0%nat (c_page cf) (c_page cf)); cbn [negb] in E; try discriminate.
    match type of E with context [s_header ?m] => destruct (s_header m) end; try discriminate.
    cbn [obind s_dcap s_ilen] in E. change (sh_alloc (mkS _ _ _ _ _ _ _ _ _)) with (sh_alloc st) in E. rewrite AL, TA in E.
    replace (N.max (N.max top (c_page cf)) (c_step cf)) with top in E by lia.
    assert (AI : s_align top (c_step cf) = top) by (unfold s_align; now rewrite MO). rewrite AI in E. cbn [s_orc] in E.
    destruct (orc 1%nat top top); cbn [negb] in E; try discriminate.
    match type of E with context [s_header ?m] => destruct (s_header m) end; try discriminate.
    cbn [obind s_dcap] in E. rewrite csub_ok in E by lia. cbn [obind] in E.
    destruct (ctry (c_tmax cf) (top - 1)) as [r| | |]; try discriminate. cbn [obind] in E. injection E as <-.
    do 3 (split; [reflexivity|]). split; [exact (eq_trans AL TA)|].
    unfold sh_first, s_set_reserved, s_set_src. cbn [s_is]. rewrite upd_same. exact FI. }
  destruct SH as (LN & DN & DC & AL' & FI').
  assert (VW : s_view st' = Val tt) by (unfold s_view; now rewrite DN, DC, N.eqb_refl).
  assert (UH : s_header st' = Val tt) by (unfold s_header; rewrite LN; destruct (N.ltb_spec 0 top); [auto|lia]).
  assert (NF : sh_first st' <> top).
  { rewrite FI'. destruct (a_free a) as [|y l] eqn:EF; cbn; [lia|]. intros ->. apply (proj2 IN). now left. }
  assert (G : s_get_link cf st' top = Panic).
  { unfold s_get_link, s_exists, s_is_unused. rewrite UH. cbn [obind]. rewrite (ok_istart _ CF), AL', N.leb_refl.
    destruct (N.leb_spec 1 top); [|lia]. destruct (N.eqb_spec (sh_first st') top); [contradiction|]. cbn [andb negb].
    unfold rd. rewrite LN. destruct (N.ltb_spec top top); [lia|reflexivity]. }
  split; auto. intros H h x C. unfold s_each, s_each_all. rewrite UH. cbn [obind]. rewrite AL'.
  assert (B : forall j, j < top -> exists o, s_get_link cf st' j = Val o).
  { intros j J. unfold s_get_link, s_exists, s_is_unused, s_get_data, s_get_data_unchecked. rewrite UH. cbn [obind].
    unfold rd, rd_unchecked. rewrite LN, DN. destruct (N.ltb_spec j top); [|lia].
    destruct ((c_istart cf <=? j) && (j <=? sh_alloc st')); cbn [obind]; [|eauto].
    destruct ((j <=? sh_alloc st') && negb (sh_first st' =? j)); cbn [obind negb]; [|eauto].
    rewrite VW. cbn [obind]. destruct (negb _); cbn [obind]; eauto. }
  assert (L : In top (range1 top) /\ forall j, In j (range1 top) -> j <= top).
  { split; [apply in_range1; lia|]. intros j J. apply in_range1 in J. lia. }
  destruct L as [L1 L2]. revert x L1 L2. generalize (range1 top). intros l.
  induction l as [|j l IH]; intros x IT JL; [contradiction|]. cbn [s_each_idx].
  destruct (N.eq_dec j top) as [->|NJ]; [now rewrite G|].
  destruct (B j) as (o & ->); [specialize (JL j (or_introl eq_refl)); lia|]. cbn [obind].
  assert (R' : forall x, s_each_idx cf st' h l x = Panic).
  { intros y. apply IH; [destruct IT; [congruence|auto]|]. intros z Z. apply JL. now right. }
  destruct o as [lk|]; auto. specialize (C x lk). destruct (h x lk) as [y f]. cbn in C. subst f. auto.
Qed.

(** * C45 for this store *)
(** A creation that returned AllocFailed called no handler and left the store as it was,
    if allocations of the index memory do not fail alone. *)
Lemma L_C45_split_alloc_failed_partial cf tops lops st d q H (h : whandler H) x st' x' :
  let SL := split_links cf tops lops in
  unit_env cf tops lops -> s_hist cf tops lops st d ->
  s_create cf tops lops h q st x = Val (st', x', Err AllocFailed) ->
  x' = x /\ same_links SL st st' /\ s_hist cf tops lops st' d /\
  s_data st' = s_data st /\ s_rs st' = s_rs st /\ s_is st' = s_is st /\ s_rt st' = s_rt st /\ s_it st' = s_it st /\
  s_dcap st' = s_dcap st /\ s_dlen st' = s_dlen st /\ s_ilen st' = s_ilen st.
Proof.
  intros SL ENV HH E. sopen a K D. pose proof (f_cf _ _ _ ENV) as CF. pose proof (f_ok _ _ _ ENV) as OK.
  pose proof ENV as (_ & _ & LOK).
  destruct (s_create_obs cf tops lops ENV st a d q HH K) as [(_ & _ & _ & P)|[[_ F]|[(NF & _ & st2 & HH2 & SM & _ & F)|(_ & st2 & _ & _ & _ & C)]]].
  - rewrite P in E. discriminate.
  - rewrite F in E. discriminate.
  - assert (st2 = st' /\ x' = x) as [-> ->] by (rewrite F in E; split; congruence). clear E.
    split; auto. split; auto. split; auto.
    assert (NF' : ~ a_full cf a) by now rewrite <- (ob_full cf _ SL _ OK _ _ K). pose proof K as [IV B].
    specialize (F unit cont tt).
    destruct (must_grow_dec cf st a IV) as [G|NG].
    + destruct (s_orc st 0%nat (s_dcap st + c_step cf) (s_ilen st + c_step cf)) eqn:EO.
      * destruct (s_create_nodata cf CF tops lops st a q IV G EO) as [_ F2]. specialize (F2 unit cont tt). cbn in F, F2.
        rewrite F2 in F. injection F as <-. repeat split; reflexivity.
      * elim (B _ _ _ EO).
      * destruct (N.le_gt_cases (s_ilen st + c_step cf) (c_tmax cf)) as [T|T].
        -- destruct (s_create_succ cf CF tops lops LOK st a q IV NF') as (st3 & _ & _ & C); [auto|].
           specialize (C unit cont tt). cbn in F, C. rewrite C in F. discriminate.
        -- pose proof (s_create_panic cf CF tops lops st a q IV G EO T unit cont tt) as P. cbn in F. rewrite P in F. discriminate.
    + destruct (s_create_succ cf CF tops lops LOK st a q IV NF') as (st3 & _ & _ & C); [tauto|].
      specialize (C unit cont tt). cbn in F, C. rewrite C in F. discriminate.
  - rewrite C in E. discriminate.
Qed.

(** The same store with other answers of the allocator to come. *)
Definition s_forecast (st : sst) (orc : nat -> N -> N -> grown) : sst := s_remem st (s_dcap st) orc.

(** If the data memory grew and the index memory did not, the next creation that gets both
    succeeds and no link is lost. *)
Lemma L_C45_split_retry_recovers cf tops lops st d q orc H (h : whandler H) x st1 x1 H2 (h2 : whandler H2) y st2 y2 f :
  let SL := split_links cf tops lops in
  unit_env cf tops lops -> s_hist cf tops lops st d ->
  (forall a b, orc 0%nat a b = NoIndex) ->
  s_create cf tops lops h q (s_forecast st orc) x = Val (st1, x1, Err AllocFailed) ->
  s_create cf tops lops h2 q st1 y = Val (st2, y2, Ok f) ->
  x1 = x /\ exists i, (y2, f) = h2 y nothing (mkLink i 0 0) /\ creates cf SL st st2 i.
Proof.
  intros SL ENV HH O0 E1 E2. sopen a K D. pose proof (f_cf _ _ _ ENV) as CF. pose proof (f_ok _ _ _ ENV) as OK.
  pose proof ENV as (_ & _ & LOK). pose proof K as [(R & W & V) B].
  assert (IV : sinv cf (s_forecast st orc) a) by (split; [now apply smem_orc|auto]).
  assert (NF : ~ a_full cf a).
  { intros F. pose proof (s_create_full cf CF tops lops (s_forecast st orc) a q IV F) as FF. rewrite FF in E1. discriminate. }
  destruct (must_grow_dec cf (s_forecast st orc) a IV) as [G|NG].
  - pose proof (s_create_noindex cf CF tops lops (s_forecast st orc) a q IV G (O0 _ _)) as F. rewrite F in E1.
    injection E1 as <- <-. split; auto. destruct G as (G1 & G2 & G3).
    change (sh_reserved (s_forecast st orc)) with (sh_reserved st) in G3.
    pose proof (sm_dcap _ _ _ _ _ R) as DC. pose proof (sm_dlen _ _ _ _ _ R) as DL.
    pose proof (sm_res1 _ _ _ _ _ R). pose proof (ok_step _ CF). pose proof (sm_len _ _ _ _ _ R).
    set (dc := s_dcap st + c_step cf) in *. set (o1 := fun k => orc (S k)) in *.
    assert (E3 : s_create cf tops lops h2 q (s_remem st dc o1) y = Val (st2, y2, Ok f)) by exact E2.
    clear E2. rename E3 into E2.
    assert (GR : o1 0%nat (dc + c_step cf) (s_ilen st + c_step cf) = Grown /\ s_ilen st + c_step cf <= c_tmax cf).
    { unfold s_create in E2. unfold s_header at 1 in E2. cbn [s_ilen s_remem] in E2.
      destruct (N.ltb_spec 0 (s_ilen st)); [|lia]. cbn [obind] in E2.
      change (sh_first (s_remem st dc o1)) with (sh_first st) in E2.
      change (sh_alloc (s_remem st dc o1)) with (sh_alloc st) in E2.
      rewrite (sm_first _ _ _ _ _ R), G1, (ok_null _ CF), (sm_alloc _ _ _ _ _ R) in E2. cbn [hd N.eqb] in E2.
      destruct (N.leb_spec (c_iend cf) (a_top a)); [lia|].
      unfold s_grow in E2. change (sh_reserved (s_remem st dc o1)) with (sh_reserved st) in E2.
      change (sh_alloc (s_remem st dc o1)) with (sh_alloc st) in E2. rewrite (sm_alloc _ _ _ _ _ R) in E2.
      rewrite csub_ok in E2 by lia. cbn [obind] in E2. destruct (N.leb_spec (sh_reserved st - 1) (a_top a)); [|lia].
      unfold s_alloc_mem in E2. cbn [s_orc s_remem s_dcap s_ilen] in E2.
      destruct (o1 0%nat (dc + c_step cf) (s_ilen st + c_step cf)) eqn:EO; try (cbn in E2; discriminate).
      split; auto. cbn [s_header s_ilen] in E2. unfold s_header in E2. cbn [s_ilen] in E2.
      destruct (N.ltb_spec 0 (s_ilen st + c_step cf)); [|lia]. cbn [obind] in E2.
      unfold ctry in E2. destruct (N.leb_spec (s_ilen st + c_step cf) (c_tmax cf)); [auto|discriminate]. }
    destruct GR as [GR TM].
    destruct (s_create_grow cf CF tops lops st a (spl a) (tpl a) dc o1 q R W (all_placed_tpl _ V) G1 G2 G3) as [R1 C1]; auto; [lia|].
    rewrite C1 in E2. exists (a_next a).
    destruct (h2 y nothing (mkLink (a_next a) 0 0)) as [y' f'] eqn:EH. injection E2 as <- <- <-. split; auto.
    now apply (creates_smem cf tops lops ENV st a).
  - exfalso. destruct (s_create_succ cf CF tops lops LOK (s_forecast st orc) a q IV NF) as (st3 & _ & _ & C); [tauto|].
    rewrite C in E1. discriminate.
Qed.

Definition six : list cmd := [Cr; Cr; Cr; Cr; Cr; Cr].
(** The first growth finds no memory for the index; later ones succeed. *)
Definition no_index_once : nat -> N -> N -> grown := fun k _ _ => match k with O => NoIndex | _ => Grown end.
Lemma L_C45_split_retry_nonvacuous : exists st d st1 st2, s_hist ex_cf ref_tree_ops ref_list_ops st d /\
  s_create ex_cf ref_tree_ops ref_list_ops (fun n _ _ => (n + 1, Continue)) [] (s_forecast st no_index_once) 0 =
    Val (st1, 0, Err AllocFailed) /\
  s_create ex_cf ref_tree_ops ref_list_ops (fun _ _ l => (l, Continue)) [] st1 nothing =
    Val (st2, mkLink 7 0 0, Ok Continue).
Proof.
  destruct (ex_sreach six) as (d & HH & _); [vm_compute; reflexivity..|].
  exists (ex_sst six), d.
  set (st1 := match s_create ex_cf ref_tree_ops ref_list_ops (fun n _ _ => (n + 1, Continue)) [] (s_forecast (ex_sst six) no_index_once) 0 with
          Val (s, _, _) => s | _ => ex_sstart end).
  exists st1, (match s_create ex_cf ref_tree_ops ref_list_ops (fun _ _ l => (l, Continue)) [] st1 nothing with
          Val (s, _, _) => s | _ => ex_sstart end).
  sp. split; vm_compute; reflexivity.
Qed.
(** Between the failure and the retry every read goes through a dangling pointer. *)
Lemma L_C45_split_index_failure_refuted : exists st d st1, s_hist ex_cf ref_tree_ops ref_list_ops st d /\
  is_link ex_S st 1 0 0 /\
  s_create ex_cf ref_tree_ops ref_list_ops (fun n _ _ => (n + 1, Continue)) [] (s_forecast st no_index_once) 0 =
    Val (st1, 0, Err AllocFailed) /\
  s_get_link ex_cf st1 1 = UB /\ s_each ex_cf (fun n _ => (n + 1, Continue)) [] st1 0 = UB.
Proof.
  destruct (ex_sreach six) as (d & HH & _); [vm_compute; reflexivity..|].
  exists (ex_sst six), d.
  exists (match s_create ex_cf ref_tree_ops ref_list_ops (fun n _ _ => (n + 1, Continue)) [] (s_forecast (ex_sst six) no_index_once) 0 with
          Val (s, _, _) => s | _ => ex_sstart end).
  sp. repeat (split; [vm_compute; reflexivity|]). vm_compute; reflexivity.
Qed.
Definition ex_no_data : nat -> N -> N -> grown := fun k _ _ => match k with O | 1%nat => Grown | _ => NoData end.
Definition exq_start : sst := match s_open ex_cf (s_blank ex_no_data) with Val (Ok st) => st | _ => ex_sstart end.
Definition exq (n : nat) : sst := Nat.iter n (fun st =>
  match s_create ex_cf ref_tree_ops ref_list_ops cont [] st tt with Val (st', _, _) => st' | _ => st end) exq_start.
Lemma L_C45_split_partial_nonvacuous : exists st st', s_hist ex_cf ref_tree_ops ref_list_ops st [] /\
  s_create ex_cf ref_tree_ops ref_list_ops (fun n _ _ => (n + 1, Continue)) [] st 0 = Val (st', 0, Err AllocFailed) /\
  is_link ex_S st' 6 0 0.
Proof.
  exists (exq 6).
  exists (match s_create ex_cf ref_tree_ops ref_list_ops (fun n _ _ => (n + 1, Continue)) [] (exq 6) 0 with
          Val (s, _, _) => s | _ => ex_sstart end).
  split; [|split; vm_compute; reflexivity].
  assert (G : forall n, (n <= 6)%nat -> s_hist ex_cf ref_tree_ops ref_list_ops (exq n) [] /\
    forall x s t, is_link ex_S (exq n) x s t -> s = 0 /\ t = 0).
  { pose proof (f_ok _ _ _ ex_env) as OK.
    induction n as [|n IH]; intros LE.
    - assert (HS : s_start ex_cf (exq 0)).
      { exists ex_no_data. split; [|vm_compute; reflexivity]. intros [|[|k]] ? ?; discriminate. }
      split; [now apply histc_start|]. intros x s t L.
      apply (ob_link ex_cf _ _ _ OK _ _ _ _ _ (s_start_inv _ _ _ ex_env _ HS)) in L. discriminate.
    - destruct IH as [HH LZ]; [lia|].
      assert (E : s_create ex_cf ref_tree_ops ref_list_ops cont [] (exq n) tt = Val (exq (S n), tt, Ok Continue)).
      { clear HH LZ. do 6 (destruct n as [|n]; [vm_compute; reflexivity|]). lia. }
      assert (UR : forall i, i <> 0 -> unreferred ex_S (exq n) i).
      { intros i I0 x s t L. destruct (LZ _ _ _ L) as [-> ->]. auto. }
      assert (HH' : s_hist ex_cf ref_tree_ops ref_list_ops (exq (S n)) []).
      { eapply (histc_create _ _ _ _ _ _ (exq n) [] unit cont [] tt _ tt (Ok Continue)); [exact HH|exact E|].
        intros i _ (s & t & L). apply UR. intros ->. unfold is_link in L. vm_compute (li_get ex_S (exq (S n)) 0) in L.
        cbn [li_get ex_S split_links] in L. unfold s_get_link, s_exists in L. destruct (s_header (exq (S n))); discriminate. }
      split; auto. intros x s t L.
      destruct (s_hist_inv _ _ _ ex_env _ _ HH) as (a & K & D).
      destruct (s_create_obs ex_cf ref_tree_ops ref_list_ops ex_env (exq n) a [] [] HH K) as [(_ & _ & _ & P)|[[_ F]|[(_ & _ & st2 & _ & _ & _ & F)|(_ & st2 & C2 & _ & _ & C)]]].
      + rewrite P in E. discriminate.
      + rewrite F in E. discriminate.
      + rewrite F in E. discriminate.
      + assert (X : Val (exq (S n), tt, Ok Continue) = Val (st2, tt, Ok Continue)) by (rewrite <- E; apply (C unit cont tt)).
        assert (st2 = exq (S n)) as -> by (injection X; auto). clear X.
        destruct C2 as (_ & _ & C3 & C4 & _). destruct (N.eq_dec x (a_next a)) as [->|NE].
        * unfold is_link in L, C3. unfold ex_S in L. rewrite C3 in L. injection L as <- <-. auto.
        * apply (LZ x). unfold is_link in *. unfold ex_S. rewrite <- (C4 x NE). exact L. }
  apply G. lia.
Qed.

(** * C30 *)
Section Twins.
  Variables (cf : cfg) (tops : tree_ops) (lops : list_ops).
  Notation U := (unit_links cf tops lops).
  Notation SL := (split_links cf tops lops).

  (** A single-memory and a two-memory store after the same calls.  The discipline is that
      of the two-memory store; no call ran out of memory. *)
  Inductive twins : ust -> sst -> Prop :=
  | tw_start us ss : u_start cf us -> s_start cf ss -> twins us ss
  | tw_create us ss us' ss' r r' : twins us ss -> d_create U us = Val (us', r) -> d_create SL ss = Val (ss', r') ->
      r <> Err AllocFailed -> r' <> Err AllocFailed -> s_okc SL ss ss' -> twins us' ss'
  | tw_update us ss us' ss' i s t r r' : twins us ss -> s_oku SL ss i s t ->
      d_update U i s t us = Val (us', r) -> d_update SL i s t ss = Val (ss', r') -> twins us' ss'
  | tw_delete us ss us' ss' i r r' : twins us ss -> s_okd SL ss i ->
      d_delete U i us = Val (us', r) -> d_delete SL i ss = Val (ss', r') -> twins us' ss'.

  Hypothesis ENV : unit_env cf tops lops.
  Let CF : cfg_ok cf := f_cf cf tops lops ENV.
  Let UOK : links_ok cf (unit_spec cf) U (uinv cf) := e_ok cf tops lops ENV.
  Let SOK : links_ok cf (split_spec cf) SL (srep cf) := f_ok cf tops lops ENV.



  Lemma twin_u_create us a : uinv cf us a ->
    (~ a_full cf a /\ a_free a = [] /\ ~ room cf a /\ d_create U us = Panic) \/
    (a_full cf a /\ d_create U us = Val (us, Err (LimitReached (c_iend cf)))) \/
    (~ a_full cf a /\ exists us', d_create U us = Val (us', Err AllocFailed)) \/
    (~ a_full cf a /\ exists us', uinv cf us' (a_create a) /\ d_create U us = Val (us', Ok (a_next a))).
  Proof.
    intros K. pose proof ENV as (_ & _ & LOK).
    destruct (u_create_ok cf CF lops LOK us a [] K) as [(N1 & N0 & N2 & _ & _ & _ & P)|[[F1 F]|[(N1 & _ & _ & _ & F)|(N1 & st2 & K' & C)]]].
    - left. split; auto. split; auto. split; auto. unfold d_create, d_create_by, d_create_by_with. cbn [li_create unit_links]. now rewrite P.
    - right; left. split; auto. apply (d_create_fail U us [] us _ F).
    - right; right; left. split; auto. eexists. apply (d_create_fail U us [] _ _ F).
    - right; right; right. split; auto. exists st2. split; auto. apply (d_create_once U us [] _ _ _ _ C).
  Qed.
  Lemma twin_s_create ss a : srep cf ss a ->
    (~ a_full cf a /\ a_free a = [] /\ ~ room cf a /\ d_create SL ss = Panic) \/
    (a_full cf a /\ d_create SL ss = Val (ss, Err (LimitReached (c_iend cf)))) \/
    (~ a_full cf a /\ exists ss', d_create SL ss = Val (ss', Err AllocFailed)) \/
    (~ a_full cf a /\ exists ss', (s_okc SL ss ss' -> srep cf ss' (a_create a)) /\ d_create SL ss = Val (ss', Ok (a_next a))).
  Proof.
    intros K. pose proof ENV as (_ & _ & LOK).
    destruct (s_create_ok cf CF tops lops LOK ss a [] K) as [(c & _ & (G1 & G2 & _) & N2 & P)|[[F1 F]|[(N1 & _ & st2 & _ & F)|(N1 & st2 & K' & O & C)]]].
    - left. split; [unfold a_full; intros [_ X]; lia|]. split; auto. split; auto. unfold d_create, d_create_by, d_create_by_with. cbn [li_create split_links]. now rewrite P.
    - right; left. split; auto. apply (d_create_fail SL ss [] ss _ F).
    - right; right; left. split; auto. eexists. apply (d_create_fail SL ss [] _ _ F).
    - right; right; right. split; auto. exists st2. split; [|apply (d_create_once SL ss [] _ _ _ _ C)].
      intros OC. split; auto. pose proof K as [(R & W & V) _].
      destruct (creates_smem cf tops lops ENV ss a st2 K N1 K') as (_ & N3 & N4 & _).
      apply sinv_create; auto. apply (ob_unref _ _ _ ENV _ _ _ K). apply OC; auto. now exists 0, 0.
  Qed.
  Lemma twin_update us ss a i s t : uinv cf us a -> srep cf ss a -> s_oku SL ss i s t ->
    exists us' ss' r a', uinv cf us' a' /\ srep cf ss' a' /\
      d_update U i s t us = Val (us', r) /\ d_update SL i s t ss = Val (ss', r).
  Proof.
    intros K1 K2 OC. destruct (a_map a i) as [p|] eqn:M.
    - assert (MN : a_map a i <> None) by congruence. apply (ob_oku _ _ _ ENV _ _ _ _ _ K2 MN) in OC.
      destruct (d_update_with_ok cf _ U _ UOK us a i s t K1 MN (proj1 OC)) as (us' & b & K1' & _ & E1).
      destruct (d_update_with_ok cf _ SL _ SOK ss a i s t K2 MN OC) as (ss' & b' & K2' & _ & E2).
      exists us', ss', (Ok i), (a_update a i s t). auto.
    - destruct (d_update_none cf _ U _ UOK us a i s t K1 M) as [_ E1].
      destruct (d_update_none cf _ SL _ SOK ss a i s t K2 M) as [_ E2].
      exists us, ss, (Err (NotExists i)), a. auto.
  Qed.
  Lemma twin_delete us ss a i : uinv cf us a -> srep cf ss a -> s_okd SL ss i ->
    exists us' ss' r a', uinv cf us' a' /\ srep cf ss' a' /\
      d_delete U i us = Val (us', r) /\ d_delete SL i ss = Val (ss', r).
  Proof.
    intros K1 K2 OC. destruct (a_map a i) as [[s t]|] eqn:M.
    - assert (MN : a_map a i <> None) by congruence. apply (ob_okd _ _ _ ENV _ _ _ K2 MN) in OC.
      assert (DT : detachable a i) by apply OC.
      destruct (d_delete_with_ok cf _ U _ UOK us a i s t K1 M DT) as (us' & K1' & _ & E1).
      destruct (d_delete_with_ok cf _ SL _ SOK ss a i s t K2 M OC) as (ss' & K2' & _ & E2).
      exists us', ss', (Ok 0), (a_delete a i). auto.
    - destruct (d_delete_none cf _ U _ UOK us a i K1 M) as [_ E1].
      destruct (d_delete_none cf _ SL _ SOK ss a i K2 M) as [_ E2].
      exists us, ss, (Err (NotExists i)), a. auto.
  Qed.

  Lemma twins_inv us ss : twins us ss -> exists a, uinv cf us a /\ srep cf ss a.
  Proof.
    induction 1 as [us ss K1 K2|us ss us' ss' r r' _ (a & K1 & K2) E1 E2 N1 N2 OC|
      us ss us' ss' i s t r r' _ (a & K1 & K2) OC E1 E2|us ss us' ss' i r r' _ (a & K1 & K2) OC E1 E2].
    - exists a_empty. split; [now apply (u_start_inv cf tops lops ENV)|now apply (s_start_inv cf tops lops ENV)].
    - destruct (twin_u_create us a K1) as [(_ & _ & _ & P)|[[F E]|[(_ & us2 & E)|(NF & us2 & K1' & E)]]]; try congruence;
        (destruct (twin_s_create ss a K2) as [(_ & _ & _ & P')|[[F' E']|[(_ & ss2 & E')|(NF' & ss2 & K2' & E')]]]; try congruence; try contradiction).
      + exists a. split; congruence.
      + assert (ss2 = ss') as -> by congruence. assert (us2 = us') as -> by congruence. exists (a_create a). auto.
    - destruct (twin_update _ _ _ _ _ _ K1 K2 OC) as (us2 & ss2 & r2 & a' & K1' & K2' & E1' & E2').
      exists a'. split; congruence.
    - destruct (twin_delete _ _ _ _ K1 K2 OC) as (us2 & ss2 & r2 & a' & K1' & K2' & E1' & E2').
      exists a'. split; congruence.
  Qed.

  Lemma twin_s_search ss a s t : srep cf ss a -> s <> 0 -> t <> 0 -> s <> c_any cf -> t <> c_any cf ->
    (d_search cf SL ss s t = Val None /\ forall i, a_map a i <> Some (s, t)) \/
    (exists i, d_search cf SL ss s t = Val (Some i) /\ a_map a i = Some (s, t)).
  Proof.
    intros K S0 T0 SA TA. destruct (s_each_ok cf CF ss a (proj1 K) [c_any cf; s; t]) as (L & V & E).
    { apply plain_each; cbn; [lia|auto]. }
    assert (ED : d_search cf SL ss s t = Val (option_map l_index (hd_error L))).
    { unfold d_search, d_find, d_each_by. cbn [li_each split_links]. rewrite E, run_radapt. cbn [obind]. destruct L; reflexivity. }
    rewrite ED. destruct (search_visits cf _ SL _ SOK ss a s t L K SA TA S0 V) as [[-> N]|(i & -> & M)]; [left|right]; cbn; eauto.
  Qed.
End Twins.

(** The next call gives the same result on both, and both can go on. *)
Lemma L_C30_twins_next_call cf tops lops us ss :
  let U := unit_links cf tops lops in let SL := split_links cf tops lops in
  unit_env cf tops lops -> twins cf tops lops us ss ->
  (forall i s t, s_oku SL ss i s t -> exists us' ss' r, d_update U i s t us = Val (us', r) /\
     d_update SL i s t ss = Val (ss', r) /\ twins cf tops lops us' ss') /\
  (forall i, s_okd SL ss i -> exists us' ss' r, d_delete U i us = Val (us', r) /\
     d_delete SL i ss = Val (ss', r) /\ twins cf tops lops us' ss') /\
  (c_iend cf + 1 + c_step cf <= c_tmax cf -> exists us' ss' r r', d_create U us = Val (us', r) /\
     d_create SL ss = Val (ss', r') /\
     (r = Err AllocFailed \/ r' = Err AllocFailed \/
      (r = r' /\ (s_okc SL ss ss' -> twins cf tops lops us' ss')))).
Proof.
  intros U SL ENV TW. destruct (twins_inv cf tops lops ENV us ss TW) as (a & K1 & K2).
  split; [|split].
  - intros i s t OC. destruct (twin_update cf tops lops ENV _ _ _ _ _ _ K1 K2 OC) as (us' & ss' & r & a' & _ & _ & E1 & E2).
    exists us', ss', r. split; auto. split; auto. eapply tw_update; eauto.
  - intros i OC. destruct (twin_delete cf tops lops ENV _ _ _ _ K1 K2 OC) as (us' & ss' & r & a' & _ & _ & E1 & E2).
    exists us', ss', r. split; auto. split; auto. eapply tw_delete; eauto.
  - intros RM. pose proof (lo_iend _ _ _ _ (f_ok _ _ _ ENV) _ _ K2) as LE.
    assert (ROOM : ~ a_full cf a -> ~ room cf a -> a_free a = [] -> False).
    { intros NF NR EF. apply NR. unfold room. unfold a_full in NF.
      destruct (N.le_gt_cases (c_iend cf) (a_top a)); [tauto|lia]. }
    destruct (twin_u_create cf tops lops ENV us a K1) as [(NF & EF & NR & P)|[[F E]|[(NF & us2 & E)|(NF & us2 & K1' & E)]]];
      [elim (ROOM NF NR EF)| | |];
      (destruct (twin_s_create cf tops lops ENV ss a K2) as [(NF' & EF' & NR' & P')|[[F' E']|[(NF' & ss2 & E')|(NF' & ss2 & K2' & E')]]];
       [elim (ROOM NF' NR' EF')| | |]); try contradiction;
      eexists _, _, _, _; (split; [exact E|]); (split; [exact E'|]); auto.
    right; right. split; auto. intros OC. eapply tw_create; eauto; discriminate.
Qed.

(** Both answer the same to get_link, count, each and search. *)
Lemma L_C30_twins_same_answers cf tops lops us ss :
  let U := unit_links cf tops lops in let SL := split_links cf tops lops in
  unit_env cf tops lops -> twins cf tops lops us ss ->
  (forall i, u_get_link cf us i = s_get_link cf ss i) /\
  (exists n, u_count cf us [] = Val n /\ s_count cf ss [] = Val n) /\
  (forall H (h : rhandler H) x, u_each cf h [] us x = s_each cf h [] ss x) /\
  (forall s t, s <> 0 -> t <> 0 -> s <> c_any cf -> t <> c_any cf ->
     (d_search cf U us s t = Val None <-> d_search cf SL ss s t = Val None) /\
     (distinct_pairs SL ss -> d_search cf U us s t = d_search cf SL ss s t)).
Proof.
  intros U SL ENV TW. destruct (twins_inv cf tops lops ENV us ss TW) as (a & K1 & K2).
  pose proof (e_ok _ _ _ ENV) as UOK. pose proof (f_ok _ _ _ ENV) as SOK. pose proof (f_cf _ _ _ ENV) as CF.
  split; [|split; [|split]].
  - intros i. pose proof (lo_get _ _ _ _ UOK _ _ i K1) as E1. pose proof (lo_get _ _ _ _ SOK _ _ i K2) as E2.
    cbn in E1, E2. congruence.
  - destruct (lo_query _ _ _ _ UOK us a [] K1) as (L1 & V1 & _ & C1); [cbn; split; [lia|discriminate]|].
    destruct (lo_query _ _ _ _ SOK ss a [] K2) as (L2 & V2 & _ & C2); [cbn; auto|].
    assert (L1 = alinks a) as -> by now apply V1. assert (L2 = alinks a) as -> by now apply V2.
    cbn in C1, C2. eauto.
  - destruct (lo_query _ _ _ _ UOK us a [] K1) as (L1 & V1 & C1 & _); [cbn; split; [lia|discriminate]|].
    destruct (lo_query _ _ _ _ SOK ss a [] K2) as (L2 & V2 & C2 & _); [cbn; auto|].
    assert (L1 = alinks a) as -> by now apply V1. assert (L2 = alinks a) as -> by now apply V2.
    intros H h x. specialize (C1 H h x). specialize (C2 H h x). cbn [li_each unit_links split_links] in C1, C2. congruence.
  - intros s t S0 T0 SA TA.
    destruct (d_search_ok cf _ U _ UOK us a s t K1 SA TA S0) as [[E1 N1]|(i & E1 & M1)];
      [cbn; split; [lia|discriminate]| |];
      (destruct (twin_s_search cf tops lops ENV ss a s t K2 S0 T0 SA TA) as [[E2 N2]|(j & E2 & M2)]).
    + split; [split; auto|]. intros _. transitivity (@Val (option N) None); [exact E1|symmetry; exact E2].
    + elim (N1 _ M2).
    + elim (N2 _ M1).
    + split; [split; intros X; exfalso; [pose proof (eq_trans (eq_sym X) E1)|pose proof (eq_trans (eq_sym X) E2)]; discriminate|]. intros DP. apply (ob_distinct cf _ SL _ SOK _ _ K2) in DP.
      assert (i = j) as -> by (eapply (DP i j (s, t)); auto; congruence).
      transitivity (Val (Some j)); [exact E1|symmetry; exact E2].
Qed.

(** Running commands on both stores, for the examples. *)
Definition drun1 {S} (I : LinksI S) (c : cmd) (st : S) : option S :=
  match (match c with Cr => d_create I st | Up i s t => d_update I i s t st | De i => d_delete I i st end) with
  | Val (st', Ok _) => Some st'
  | _ => None
  end.
Fixpoint drun {S} (I : LinksI S) (l : list cmd) (st : S) : option S :=
  match l with [] => Some st | c :: l' => match drun1 I c st with Some st' => drun I l' st' | None => None end end.
Lemma drun_twins cf tops lops l : unit_env cf tops lops ->
  forall us ss a us' ss', twins cf tops lops us ss -> uinv cf us a -> srep cf ss a -> scheck a l = true ->
    drun (unit_links cf tops lops) l us = Some us' -> drun (split_links cf tops lops) l ss = Some ss' ->
    twins cf tops lops us' ss' /\ srep cf ss' (arun a l).
Proof.
  intros ENV. pose proof (e_ok _ _ _ ENV) as UOK. pose proof (f_ok _ _ _ ENV) as SOK.
  induction l as [|c l IH]; intros us ss a us' ss' TW K1 K2 A E1 E2.
  - injection E1 as <-. injection E2 as <-. auto.
  - cbn [scheck] in A. apply andb_true_iff in A as [A1 A2]. cbn [drun] in E1, E2.
    destruct (drun1 (unit_links cf tops lops) c us) as [us1|] eqn:D1; [|discriminate].
    destruct (drun1 (split_links cf tops lops) c ss) as [ss1|] eqn:D2; [|discriminate].
    pose proof (lo_wf _ _ _ _ SOK _ _ K2) as W.
    assert (ST : twins cf tops lops us1 ss1 /\ uinv cf us1 (astep a c) /\ srep cf ss1 (astep a c)).
    { destruct c as [|i s t|i]; unfold drun1 in D1, D2; cbn [astep].
      - assert (UR : unreferenced a (a_next a)) by now apply unrefb_ok.
        destruct (twin_u_create cf tops lops ENV us a K1) as [(_ & _ & _ & P)|[[F E]|[(_ & us2 & E)|(NF & us2 & K1' & E)]]];
          try (first [rewrite P in D1|rewrite E in D1]; discriminate).
        destruct (twin_s_create cf tops lops ENV ss a K2) as [(_ & _ & _ & P')|[[F' E']|[(_ & ss2 & E')|(NF' & ss2 & K2' & E')]]];
          try (first [rewrite P' in D2|rewrite E' in D2]; discriminate).
        pose proof E as X1. pose proof E' as X2. rewrite E in D1. injection D1 as ->. rewrite E' in D2. injection D2 as ->.
        assert (OC : s_okc (split_links cf tops lops) ss ss1).
        { intros i N1 N2. apply (ob_unref cf tops lops ENV _ _ _ K2).
          destruct (N.eq_dec i (a_next a)) as [->|NE]; auto. exfalso.
          pose proof ENV as (CF & _ & LOK).
          destruct (s_create_ok cf CF tops lops LOK ss a [] K2) as
            [(_ & _ & _ & _ & P)|[[F _]|[(_ & _ & st2 & _ & F)|(_ & st2 & K' & O & C)]]].
          - unfold d_create, d_create_by, d_create_by_with in X2. cbn [li_create split_links] in X2. rewrite P in X2. discriminate.
          - contradiction.
          - pose proof (d_create_fail (split_links cf tops lops) ss [] _ _ F) as X3. unfold d_create in X2. rewrite X3 in X2. discriminate.
          - pose proof (d_create_once (split_links cf tops lops) ss [] _ _ _ _ C) as X3.
            unfold d_create in X2. rewrite X3 in X2. injection X2 as ->.
            destruct (creates_smem cf tops lops ENV ss a ss1 K2 NF K') as (_ & _ & _ & FR & _).
            destruct N2 as (s & t & N2). unfold no_link, is_link in *. rewrite (FR i NE) in N2. congruence. }
        split; auto. eapply tw_create; eauto; discriminate.
      - destruct (scheck_upd _ _ _ _ W A1) as [M SU].
        destruct (d_update_with_ok cf _ _ _ UOK us a i s t K1 M (proj1 SU)) as (us2 & b & K1' & _ & E).
        destruct (d_update_with_ok cf _ _ _ SOK ss a i s t K2 M SU) as (ss2 & b' & K2' & _ & E').
        pose proof E as X1. pose proof E' as X2. rewrite E in D1. injection D1 as ->. rewrite E' in D2. injection D2 as ->.
        split; auto. eapply tw_update; eauto. apply (ob_oku cf tops lops ENV _ _ _ _ _ K2); auto.
      - destruct (scheck_del _ _ W A1) as (s & t & M & SD).
        assert (DT : detachable a i) by apply SD.
        destruct (d_delete_with_ok cf _ _ _ UOK us a i s t K1 M DT) as (us2 & K1' & _ & E).
        destruct (d_delete_with_ok cf _ _ _ SOK ss a i s t K2 M SD) as (ss2 & K2' & _ & E').
        pose proof E as X1. pose proof E' as X2. rewrite E in D1. injection D1 as ->. rewrite E' in D2. injection D2 as ->.
        split; auto. eapply tw_delete; eauto. apply (ob_okd cf tops lops ENV _ _ _ K2); auto. congruence. }
    destruct ST as (TW' & K1' & K2'). cbn [arun fold_left]. eapply IH; eauto.
Qed.
Definition ex_tu (l : list cmd) : ust := match drun ex_U l ex_start with Some st => st | None => ex_start end.
Definition ex_ts (l : list cmd) : sst := match drun ex_S l ex_sstart with Some st => st | None => ex_sstart end.
Lemma ex_twins l : scheck a_empty l = true ->
  match drun ex_U l ex_start, drun ex_S l ex_sstart with Some _, Some _ => true | _, _ => false end = true ->
  twins ex_cf ref_tree_ops ref_list_ops (ex_tu l) (ex_ts l) /\ srep ex_cf (ex_ts l) (arun a_empty l).
Proof.
  intros A E. unfold ex_tu, ex_ts. destruct (drun ex_U l ex_start) as [us|] eqn:E1; [|discriminate].
  destruct (drun ex_S l ex_sstart) as [ss|] eqn:E2; [|discriminate].
  assert (US : u_start ex_cf ex_start) by (exists (fun _ _ => true); vm_compute; reflexivity).
  eapply (drun_twins ex_cf ref_tree_ops ref_list_ops l ex_env ex_start ex_sstart a_empty); auto.
  - apply tw_start; auto. exact ex_s_start.
  - now apply (u_start_inv _ _ _ ex_env).
  - apply (s_start_inv _ _ _ ex_env). exact ex_s_start.
Qed.
Lemma L_C30_nonvacuous : exists us ss, twins ex_cf ref_tree_ops ref_list_ops us ss /\ distinct_pairs ex_S ss /\
  is_link ex_S ss 3 2 4 /\ no_link ex_S ss 4 /\ s_oku ex_S ss 2 3 3 /\ s_okd ex_S ss 2 /\
  c_iend ex_cf + 1 + c_step ex_cf <= c_tmax ex_cf /\ d_search ex_cf ex_S ss 2 4 = Val (Some 3) /\
  d_search ex_cf ex_U us 2 4 = Val (Some 3).
Proof.
  destruct (ex_twins ex4h) as [TW K]; [vm_compute; reflexivity..|].
  exists (ex_tu ex4h), (ex_ts ex4h). split; auto. pose proof (f_ok _ _ _ ex_env) as OK.
  assert (DP : distinct_pairs ex_S (ex_ts ex4h)).
  { apply (ob_distinct ex_cf _ _ _ OK _ _ K). apply adistinct_dec; [eapply lo_wf; eauto|vm_compute; reflexivity]. }
  split; auto. split; [vm_compute; reflexivity|]. split; [vm_compute; reflexivity|].
  split. { right. split; [now apply distinct_separable|]. split; [discriminate|]. intros [X|X]; discriminate. }
  split; [now apply s_okd_distinct|]. split; [cbn; lia|]. split; vm_compute; reflexivity.
Qed.
(** Queries for a null source differ even within the discipline. *)
Lemma L_C30_null_source_refuted : exists us ss, twins ex_cf ref_tree_ops ref_list_ops us ss /\ is_link ex_S ss 1 0 2 /\
  d_search ex_cf ex_U us 0 2 = Val None /\ d_search ex_cf ex_S ss 0 2 = Val (Some 1).
Proof.
  destruct (ex_twins [Cr; Cr; Up 1 0 2]) as [TW K]; [vm_compute; reflexivity..|].
  exists (ex_tu [Cr; Cr; Up 1 0 2]), (ex_ts [Cr; Cr; Up 1 0 2]). split; auto.
  split; [vm_compute; reflexivity|]. split; vm_compute; reflexivity.
Qed.
