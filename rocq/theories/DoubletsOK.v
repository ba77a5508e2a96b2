(** The default methods over any implementation that follows the abstract store. *)
From Coq Require Import NArith List Bool Lia Permutation.
From Verif Require Import Base Spec Iface Doublets Obs.
Import ListNotations.
Open Scope N_scope.

(** Running a user read handler over a list of links until it breaks. *)
Fixpoint urun {H B} (h : uread H B) (l : list link) (x : H) : H * option B :=
  match l with
  | [] => (x, None)
  | k :: l' => match h x k with
               | (x', None) => urun h l' x'
               | (x', Some r) => (x', Some r)
               end
  end.

Lemma run_radapt H B (h : uread H B) l : forall x,
  run_handler (radapt h) l (x, None) =
  (urun h l x, flow_of (snd (urun h l x))).
Proof.
  induction l as [|k l IH]; intros x; [reflexivity|]. cbn [run_handler radapt urun].
  destruct (h x k) as [x' [r|]]; [reflexivity|]. apply IH.
Qed.

Lemma urun_map {A B} (f : link -> A) l : forall v,
  urun (B := B) (fun v k => (v ++ [f k], None)) l v = (v ++ map f l, None).
Proof.
  induction l as [|k l IH]; intros v; cbn [urun map]; [now rewrite app_nil_r|].
  rewrite IH, <- app_assoc. reflexivity.
Qed.

Lemma urun_filter {A B} (p : link -> bool) (f : link -> A) l : forall v,
  urun (B := B) (fun v k => (if p k then v ++ [f k] else v, None)) l v = (v ++ map f (filter p l), None).
Proof.
  induction l as [|k l IH]; intros v; cbn [urun filter map]; [now rewrite app_nil_r|].
  rewrite IH. destruct (p k); [|reflexivity]. cbn [map]. now rewrite <- app_assoc.
Qed.

(** Abstract multi-step states. *)
Definition a_deletes (a : astate) (l : list N) : astate := fold_left a_delete l a.

Lemma a_deletes_map l : forall a j,
  a_map (a_deletes a l) j = if in_dec N.eq_dec j l then None else a_map a j.
Proof.
  induction l as [|i l IH]; intros a j; [reflexivity|]. cbn [a_deletes fold_left]. fold (a_deletes (a_delete a i) l).
  rewrite IH, a_delete_map. unfold upd.
  destruct (in_dec N.eq_dec j l), (in_dec N.eq_dec j (i :: l)) as [K|K], (N.eqb_spec j i) as [E|E];
    auto; try (exfalso; simpl in K; intuition congruence).
Qed.

Definition a_update' (a : astate) (u : N * (N * N)) : astate := a_update a (fst u) (fst (snd u)) (snd (snd u)).
Definition a_updates (a : astate) (l : list (N * (N * N))) : astate := fold_left a_update' l a.

Section OK.
  Variable cf : cfg.
  Variable sp : store_spec.
  Context {S : Type}.
  Variable I : LinksI S.
  Variable R : S -> astate -> Prop.
  Hypothesis IOK : links_ok cf sp I R.

  (** ** Reads *)
  Definition visits (st : S) (q : list N) (L : list link) : Prop :=
    (forall H (h : rhandler H) x, li_each I H h q st x = Val (run_handler h L x)) /\
    li_count I st q = Val (N.of_nat (length L)).

  Lemma visits_ex st a q : R st a -> sp_query sp a q ->
    exists L, visits st q L /\ visits_ok (c_any cf) q a L.
  Proof.
    intros HR HQ. destruct (lo_query _ _ _ _ IOK _ _ _ HR HQ) as (L & L1 & L2 & L3).
    exists L. unfold visits. auto.
  Qed.

  Lemma d_each_by_ok st q L H B (h : uread H B) x :
    visits st q L -> d_each_by I h q st x = Val (urun h L x).
  Proof.
    intros [V _]. unfold d_each_by. rewrite V, run_radapt. cbn [obind].
    destruct (urun h L x); reflexivity.
  Qed.

  Lemma d_each_iter_ok st q L : visits st q L -> d_each_iter I st q = Val L.
  Proof.
    intros V. unfold d_each_iter, d_count_by. rewrite (proj2 V). cbn [obind].
    rewrite (d_each_by_ok _ _ _ _ _ _ _ V). cbn [obind].
    rewrite (urun_map (fun k => k)), map_id. reflexivity.
  Qed.

  Lemma d_find_ok st q L : visits st q L -> d_find I st q = Val (hd_error L).
  Proof.
    intros V. unfold d_find. rewrite (d_each_by_ok _ _ _ _ _ _ _ V). cbn [obind].
    destruct L; reflexivity.
  Qed.

  Lemma d_found_ok st q L : visits st q L ->
    d_found I st q = Val (match L with [] => false | _ => true end).
  Proof.
    intros V. unfold d_found, d_count_by. rewrite (proj2 V). cbn [obind]. destruct L; reflexivity.
  Qed.

  Lemma d_single_ok st q L : visits st q L ->
    d_single I st q = Val (match L with [l] => Some l | _ => None end).
  Proof.
    intros V. unfold d_single. rewrite (d_each_by_ok _ _ _ _ _ _ _ V). cbn [obind].
    destruct L as [|l [|l' L]]; reflexivity.
  Qed.

  Lemma d_try_get_ok st a i : R st a ->
    d_try_get_link I st i =
    Val (match a_map a i with Some (s, t) => Ok (mkLink i s t) | None => Err (NotExists i) end).
  Proof.
    intros HR. unfold d_try_get_link. rewrite (lo_get _ _ _ _ IOK _ _ _ HR). cbn [obind].
    destruct (a_map a i) as [[s t]|]; reflexivity.
  Qed.

  (** ** Writes *)
  Lemma wadapt_once (f : wcall S) st' b a H B (h : uwrite H B) x :
    calls_once f st' b a ->
    (let* (st', (x', o), r) := f _ (wadapt h) (x, None) in Val (st', x', rmap (fun _ => o) r)) =
    Val (st', fst (h x b a), Ok (snd (h x b a))).
  Proof.
    intros C. rewrite C. cbn [obind wadapt]. destruct (h x b a) as [x' [r|]]; reflexivity.
  Qed.
  Lemma wadapt_fail (f : wcall S) st' e H B (h : uwrite H B) x :
    fails_with f st' e ->
    (let* (st', (x', o), r) := f _ (wadapt h) (x, None) in Val (st', x', rmap (fun _ => o) r)) =
    Val (st', x, Err e).
  Proof. intros C. rewrite C. reflexivity. Qed.

  (** Outcome of a creation. *)
  Inductive create_res (st : S) (a : astate) (q : list N) : Prop :=
  | cr_limit : a_full cf a ->
      fails_with (fun H h x => li_create I H h q st x) st (LimitReached (c_iend cf)) -> create_res st a q
  | cr_alloc st' : ~ a_full cf a -> a_free a = [] -> R st' a ->
      fails_with (fun H h x => li_create I H h q st x) st' AllocFailed -> create_res st a q
  | cr_ok st' : ~ a_full cf a -> R st' (a_create a) ->
      calls_once (fun H h x => li_create I H h q st x) st' nothing (mkLink (a_next a) 0 0) -> create_res st a q.

  Lemma create_cases st a q : R st a -> sp_create sp a -> create_res st a q.
  Proof.
    intros HR HS. destruct (lo_create _ _ _ _ IOK _ _ q HR HS) as [[K1 K2]|[(K1 & K2 & st' & K3 & K4)|(K1 & st' & K2 & K3)]].
    - now apply cr_limit.
    - eapply cr_alloc; eauto.
    - eapply cr_ok; eauto.
  Qed.

  Lemma d_create_fail st q st' e :
    fails_with (fun H h x => li_create I H h q st x) st' e ->
    d_create_by I q st = Val (st', Err e).
  Proof.
    intros F. unfold d_create_by, d_create_by_with.
    rewrite (wadapt_fail _ _ _ _ _ _ _ F). reflexivity.
  Qed.
  Lemma d_create_once st q st' i s t :
    calls_once (fun H h x => li_create I H h q st x) st' nothing (mkLink i s t) ->
    d_create_by I q st = Val (st', Ok i).
  Proof.
    intros F. unfold d_create_by, d_create_by_with.
    rewrite (wadapt_once _ _ _ _ _ _ _ _ F). reflexivity.
  Qed.

  Lemma d_update_with_ok st a i s t : R st a -> a_map a i <> None -> sp_update sp a i s t ->
    exists st' b, R st' (a_update a i s t) /\
      (forall H B (h : uwrite H B) x, d_update_with I h i s t st x =
         Val (st', fst (h x b (mkLink i s t)), Ok (snd (h x b (mkLink i s t))))) /\
      d_update I i s t st = Val (st', Ok i).
  Proof.
    intros HR M P.
    destruct (lo_update _ _ _ _ IOK _ _ [i] [i; s; t] i s t HR eq_refl eq_refl eq_refl M P) as (st' & b & R' & C).
    exists st', b. split; auto.
    assert (K : forall H B (h : uwrite H B) x, d_update_with I h i s t st x =
         Val (st', fst (h x b (mkLink i s t)), Ok (snd (h x b (mkLink i s t))))).
    { intros. unfold d_update_with, d_update_by_with. apply (wadapt_once _ _ _ _ _ _ _ _ C). }
    split; auto. unfold d_update, d_update_by. unfold d_update_with in K. rewrite K. reflexivity.
  Qed.

  Lemma d_update_none st a i s t : R st a -> a_map a i = None ->
    (forall H B (h : uwrite H B) x, d_update_with I h i s t st x = Val (st, x, Err (NotExists i))) /\
    d_update I i s t st = Val (st, Err (NotExists i)).
  Proof.
    intros HR M.
    pose proof (lo_update_none _ _ _ _ IOK _ _ [i] [i; s; t] i s t HR eq_refl eq_refl eq_refl M) as C.
    assert (K : forall H B (h : uwrite H B) x, d_update_with I h i s t st x = Val (st, x, Err (NotExists i))).
    { intros. unfold d_update_with, d_update_by_with. apply (wadapt_fail _ _ _ _ _ _ _ C). }
    split; auto. unfold d_update, d_update_by. unfold d_update_with in K. rewrite K. reflexivity.
  Qed.

  Lemma d_delete_with_ok st a i s t : R st a -> a_map a i = Some (s, t) -> sp_delete sp a i ->
    exists st', R st' (a_delete a i) /\
      (forall H B (h : uwrite H B) x, d_delete_with I h i st x =
         Val (st', fst (h x (mkLink i s t) nothing), Ok (snd (h x (mkLink i s t) nothing)))) /\
      d_delete I i st = Val (st', Ok 0).
  Proof.
    intros HR M P.
    destruct (lo_delete _ _ _ _ IOK _ _ [i] i s t HR eq_refl M P) as (st' & R' & C).
    exists st'. split; auto.
    assert (K : forall H B (h : uwrite H B) x, d_delete_with I h i st x =
         Val (st', fst (h x (mkLink i s t) nothing), Ok (snd (h x (mkLink i s t) nothing)))).
    { intros. unfold d_delete_with, d_delete_by_with. apply (wadapt_once _ _ _ _ _ _ _ _ C). }
    split; auto. unfold d_delete, d_delete_by. unfold d_delete_with in K. rewrite K. reflexivity.
  Qed.

  Lemma d_delete_none st a i : R st a -> a_map a i = None ->
    (forall H B (h : uwrite H B) x, d_delete_with I h i st x = Val (st, x, Err (NotExists i))) /\
    d_delete I i st = Val (st, Err (NotExists i)).
  Proof.
    intros HR M.
    pose proof (lo_delete_none _ _ _ _ IOK _ _ [i] i HR eq_refl M) as C.
    assert (K : forall H B (h : uwrite H B) x, d_delete_with I h i st x = Val (st, x, Err (NotExists i))).
    { intros. unfold d_delete_with, d_delete_by_with. apply (wadapt_fail _ _ _ _ _ _ _ C). }
    split; auto. unfold d_delete, d_delete_by. unfold d_delete_with in K. rewrite K. reflexivity.
  Qed.

  (** ** create_link, create_point *)
  Lemma d_create_link_ok st a s t : R st a -> sp_create sp a ->
    sp_update sp (a_create a) (a_next a) s t ->
    (exists e, d_create_link I s t st = Val (st, Err e) /\ e = LimitReached (c_iend cf) /\ a_full cf a) \/
    (exists st', d_create_link I s t st = Val (st', Err AllocFailed) /\ R st' a /\ ~ a_full cf a) \/
    (exists st', d_create_link I s t st = Val (st', Ok (a_next a)) /\
       R st' (a_update (a_create a) (a_next a) s t) /\ ~ a_full cf a).
  Proof.
    intros HR HC HU. pose proof (lo_wf _ _ _ _ IOK _ _ HR) as W.
    unfold d_create_link, d_create_link_with, d_create_with, d_create_by_with.
    destruct (create_cases st a [] HR HC) as [F C|st' F E R' C|st' F R' C].
    - left. eexists. rewrite (wadapt_fail _ _ _ _ _ _ _ C). cbn. auto.
    - right; left. exists st'. rewrite (wadapt_fail _ _ _ _ _ _ _ C). cbn. auto.
    - right; right. rewrite (wadapt_once _ _ _ _ _ _ _ _ C). cbn [obind fst snd fuse_call l_index].
      assert (M : a_map (a_create a) (a_next a) <> None).
      { rewrite a_create_map by auto. rewrite upd_same. discriminate. }
      destruct (d_update_with_ok _ _ _ s t R' M HU) as (st2 & b & R2 & K & _).
      exists st2. rewrite K. cbn. auto.
  Qed.

  Lemma d_create_point_ok st a : R st a -> sp_create sp a ->
    sp_update sp (a_create a) (a_next a) (a_next a) (a_next a) ->
    (d_create_point I st = Val (st, Err (LimitReached (c_iend cf))) /\ a_full cf a) \/
    (exists st', d_create_point I st = Val (st', Err AllocFailed) /\ R st' a /\ ~ a_full cf a) \/
    (exists st', d_create_point I st = Val (st', Ok (a_next a)) /\
       R st' (a_update (a_create a) (a_next a) (a_next a) (a_next a)) /\ ~ a_full cf a).
  Proof.
    intros HR HC HU. pose proof (lo_wf _ _ _ _ IOK _ _ HR) as W.
    unfold d_create_point, d_create.
    destruct (create_cases st a [] HR HC) as [F C|st' F E R' C|st' F R' C].
    - left. rewrite (d_create_fail _ _ _ _ C). cbn. auto.
    - right; left. exists st'. rewrite (d_create_fail _ _ _ _ C). cbn. auto.
    - right; right. rewrite (d_create_once _ _ _ _ _ _ C). cbn [obind].
      assert (M : a_map (a_create a) (a_next a) <> None).
      { rewrite a_create_map by auto. rewrite upd_same. discriminate. }
      destruct (d_update_with_ok _ _ _ (a_next a) (a_next a) R' M HU) as (st2 & b & R2 & _ & K).
      exists st2. rewrite K. auto.
  Qed.

  (** ** search, get_or_create *)
  Lemma search_visits st a s t L : R st a -> s <> c_any cf -> t <> c_any cf -> s <> 0 ->
    visits_ok (c_any cf) [c_any cf; s; t] a L ->
    (L = [] /\ forall i, a_map a i <> Some (s, t)) \/
    (exists i, L = [mkLink i s t] /\ a_map a i = Some (s, t)).
  Proof.
    intros HR NS NT S0 V. pose proof (lo_wf _ _ _ _ IOK _ _ HR) as W.
    unfold visits_ok, is_search, avisits in V. rewrite N.eqb_refl in V.
    destruct (N.eqb_spec s (c_any cf)); [congruence|]. destruct (N.eqb_spec t (c_any cf)); [congruence|].
    destruct (N.eqb_spec s 0); [congruence|]. cbn [andb negb] in V.
    destruct V as [[-> V]|(l & -> & V)].
    - left. split; auto. intros i K.
      assert (IN : In (mkLink i s t) (filter (fun l => (l_source l =? s) && (l_target l =? t)) (alinks a))).
      { apply filter_In. split; [now apply in_alinks|]. simpl. now rewrite !N.eqb_refl. }
      rewrite V in IN. exact IN.
    - right. apply filter_In in V as [V1 V2]. apply andb_true_iff in V2 as [V2 V3].
      apply N.eqb_eq in V2, V3. apply in_alinks' in V1; auto. rewrite V2, V3 in V1.
      exists (l_index l). split; auto. destruct l; simpl in *. congruence.
  Qed.

  Lemma d_search_ok st a s t : R st a -> s <> c_any cf -> t <> c_any cf -> s <> 0 ->
    sp_query sp a [c_any cf; s; t] ->
    (d_search cf I st s t = Val None /\ forall i, a_map a i <> Some (s, t)) \/
    (exists i, d_search cf I st s t = Val (Some i) /\ a_map a i = Some (s, t)).
  Proof.
    intros HR NS NT S0 HQ. destruct (visits_ex _ _ _ HR HQ) as (L & V & VO).
    unfold d_search. rewrite (d_find_ok _ _ _ V). cbn [obind].
    destruct (search_visits _ _ _ _ _ HR NS NT S0 VO) as [[-> K]|(i & -> & K)]; [left|right]; auto.
    exists i. auto.
  Qed.

  Lemma d_get_or_create_ok st a s t : R st a -> s <> c_any cf -> t <> c_any cf -> s <> 0 ->
    sp_query sp a [c_any cf; s; t] -> sp_create sp a -> sp_update sp (a_create a) (a_next a) s t ->
    (exists i, a_map a i = Some (s, t) /\ d_get_or_create cf I s t st = Val (st, Ok i)) \/
    ((forall i, a_map a i <> Some (s, t)) /\ d_get_or_create cf I s t st = d_create_link I s t st).
  Proof.
    intros HR NS NT S0 HQ HC HU. unfold d_get_or_create.
    destruct (d_search_ok _ _ _ _ HR NS NT S0 HQ) as [[E K]|(i & E & K)]; rewrite E; cbn [obind].
    - right. auto.
    - left. exists i. auto.
  Qed.

  (** ** usages *)
  Definition other_src (a : astate) (i : N) : list link :=
    filter (fun l => negb (l_index l =? i) && (l_source l =? i)) (alinks a).
  Definition other_tgt (a : astate) (i : N) : list link :=
    filter (fun l => negb (l_index l =? i) && (l_target l =? i)) (alinks a).

  Lemma filter_filter {A} (f g : A -> bool) l : filter f (filter g l) = filter (fun x => f x && g x) l.
  Proof.
    induction l as [|x l IH]; simpl; [reflexivity|]. destruct (g x) eqn:G; simpl; rewrite ?IH; destruct (f x); reflexivity.
  Qed.

  Lemma Permutation_filter {A} (f : A -> bool) l l' : Permutation l l' -> Permutation (filter f l) (filter f l').
  Proof.
    induction 1; simpl; auto.
    - destruct (f x); auto.
    - destruct (f x), (f y); auto. apply perm_swap.
    - etransitivity; eauto.
  Qed.

  Lemma src_visits st a i L : R st a -> i <> 0 -> i <> c_any cf ->
    visits_ok (c_any cf) [c_any cf; i; c_any cf] a L ->
    Permutation L (filter (fun l => l_source l =? i) (alinks a)).
  Proof.
    intros HR I0 NI V. unfold visits_ok, is_search, avisits in V. rewrite N.eqb_refl in V.
    destruct (N.eqb_spec i (c_any cf)); [congruence|]. destruct (N.eqb_spec i 0); [congruence|].
    cbn [andb negb] in V. apply V.
  Qed.
  Lemma tgt_visits st a i L : R st a -> i <> 0 -> i <> c_any cf ->
    visits_ok (c_any cf) [c_any cf; c_any cf; i] a L ->
    Permutation L (filter (fun l => l_target l =? i) (alinks a)).
  Proof.
    intros HR I0 NI V. unfold visits_ok, is_search, avisits in V. rewrite N.eqb_refl in V.
    destruct (N.eqb_spec i (c_any cf)); [congruence|]. destruct (N.eqb_spec i 0); [congruence|].
    cbn [andb negb] in V. apply V.
  Qed.

  Lemma exists_range st a i : cfg_ok cf -> R st a -> a_map a i <> None -> i <> 0 /\ i <> c_any cf /\ i <= c_iend cf.
  Proof.
    intros CF HR M. pose proof (lo_wf _ _ _ _ IOK _ _ HR) as W. pose proof (lo_iend _ _ _ _ IOK _ _ HR).
    apply (wf_dom _ W) in M. pose proof (ok_iend _ CF). lia.
  Qed.

  (** Removing the link itself from a list of usages. *)
  Lemma split_self (a : astate) (i : N) (p : link -> bool) s t : awf a -> a_map a i = Some (s, t) ->
    length (filter p (alinks a)) =
    (length (filter (fun l => negb (l_index l =? i) && p l) (alinks a)) + (if p (mkLink i s t) then 1 else 0))%nat.
  Proof.
    intros W M.
    assert (IN : In (mkLink i s t) (alinks a)) by now apply in_alinks.
    pose proof (nodup_alinks_idx a) as ND.
    assert (U : forall l, In l (alinks a) -> l_index l = i -> l = mkLink i s t).
    { intros l K E. apply in_alinks' in K; auto. rewrite E, M in K. destruct l; simpl in *. congruence. }
    induction (alinks a) as [|l L IH]; [destruct IN|].
    cbn [map] in ND. inversion ND as [|? ? NI ND']; subst. cbn [filter].
    destruct IN as [->|IN].
    - cbn [l_index]. rewrite N.eqb_refl. cbn [negb andb].
      assert (EQ : filter p L = filter (fun l => negb (l_index l =? i) && p l) L).
      { apply filter_ext_in. intros l Hl. destruct (N.eqb_spec (l_index l) i) as [E|]; [|reflexivity].
        exfalso. apply NI. cbn [l_index]. rewrite <- E. now apply in_map. }
      rewrite <- EQ. destruct (p (mkLink i s t)); cbn [length]; lia.
    - assert (NE : l_index l <> i).
      { intros E. apply NI. rewrite E. apply in_map_iff. exists (mkLink i s t). auto. }
      destruct (N.eqb_spec (l_index l) i); [congruence|]. cbn [negb andb].
      assert (IH' := IH IN ND' (fun k K => U k (or_intror K))).
      destruct (p l); cbn [length]; lia.
  Qed.

  Lemma len_filter_le {A} (f : A -> bool) l : (length (filter f l) <= length l)%nat.
  Proof. induction l as [|x l IH]; simpl; [lia|]. destruct (f x); simpl; lia. Qed.

  Lemma alinks_len_le a : (length (alinks a) <= N.to_nat (a_top a))%nat.
  Proof.
    unfold alinks. rewrite <- length_range1. induction (range1 (a_top a)) as [|i l IH]; simpl; [lia|].
    destruct (a_map a i) as [[s t]|]; simpl; lia.
  Qed.

  Lemma d_count_usages_ok st a i : cfg_ok cf -> R st a ->
    sp_query sp a [c_any cf; i; c_any cf] -> sp_query sp a [c_any cf; c_any cf; i] ->
    2 * a_top a <= c_tmax cf -> a_map a i <> None ->
    d_count_usages cf I st i = Val (Ok (N.of_nat (length (other_src a i) + length (other_tgt a i)))).
  Proof.
    intros CF HR Q1 Q2 RM M. destruct (exists_range _ _ _ CF HR M) as (I0 & IA & IE).
    pose proof (lo_wf _ _ _ _ IOK _ _ HR) as W.
    destruct (a_map a i) as [[s t]|] eqn:E; [|congruence]. clear M.
    destruct (visits_ex _ _ _ HR Q1) as (L1 & V1 & VO1). destruct (visits_ex _ _ _ HR Q2) as (L2 & V2 & VO2).
    apply (src_visits _ _ _ _ HR I0 IA) in VO1. apply (tgt_visits _ _ _ _ HR I0 IA) in VO2.
    unfold d_count_usages, d_count_by. rewrite (d_try_get_ok _ _ _ HR), E. cbn [obind l_source l_target].
    rewrite (proj2 V1), (proj2 V2). cbn [obind].
    apply Permutation_length in VO1, VO2.
    rewrite (split_self a i _ s t W E) in VO1. rewrite (split_self a i _ s t W E) in VO2.
    cbn [l_source l_target] in VO1, VO2. fold (other_src a i) in VO1. fold (other_tgt a i) in VO2.
    pose proof (len_filter_le (fun l => negb (l_index l =? i) && (l_source l =? i)) (alinks a)) as B1.
    pose proof (len_filter_le (fun l => negb (l_index l =? i) && (l_target l =? i)) (alinks a)) as B2.
    fold (other_src a i) in B1. fold (other_tgt a i) in B2.
    pose proof (alinks_len_le a).
    rewrite (N.eqb_sym i s), (N.eqb_sym i t).
    destruct (s =? i), (t =? i); rewrite ?csub_ok by lia; cbn [obind]; rewrite cadd_ok by lia; cbn [obind];
      do 2 f_equal; lia.
  Qed.

  Lemma d_usages_ok st a i : cfg_ok cf -> R st a ->
    sp_query sp a [c_any cf; i; c_any cf] -> sp_query sp a [c_any cf; c_any cf; i] ->
    2 * a_top a <= c_tmax cf -> a_map a i <> None ->
    exists v1 v2, d_usages cf I st i = Val (Ok (map l_index (v1 ++ v2))) /\
      Permutation v1 (other_src a i) /\ Permutation v2 (other_tgt a i).
  Proof.
    intros CF HR Q1 Q2 RM M. destruct (exists_range _ _ _ CF HR M) as (I0 & IA & IE).
    destruct (visits_ex _ _ _ HR Q1) as (L1 & V1 & VO1). destruct (visits_ex _ _ _ HR Q2) as (L2 & V2 & VO2).
    apply (src_visits _ _ _ _ HR I0 IA) in VO1. apply (tgt_visits _ _ _ _ HR I0 IA) in VO2.
    unfold d_usages. rewrite (d_count_usages_ok _ _ _ CF HR Q1 Q2 RM M). cbn [obind].
    rewrite (d_each_by_ok _ _ _ _ _ _ _ V1), (urun_filter (fun k => negb (l_index k =? i)) l_index). cbn [obind app].
    rewrite (d_each_by_ok _ _ _ _ _ _ _ V2), (urun_filter (fun k => negb (l_index k =? i)) l_index). cbn [obind].
    eexists _, _. rewrite map_app. split; [reflexivity|].
    split; [apply (Permutation_filter (fun l => negb (l_index l =? i))) in VO1; rewrite filter_filter in VO1; exact VO1|].
    apply (Permutation_filter (fun l => negb (l_index l =? i))) in VO2. rewrite filter_filter in VO2. exact VO2.
  Qed.

  Lemma d_usages_none st a i : R st a -> a_map a i = None ->
    d_usages cf I st i = Val (Err (NotExists i)) /\ d_count_usages cf I st i = Val (Err (NotExists i)) /\
    d_has_usages cf I st i = Val false.
  Proof.
    intros HR M.
    assert (K : d_count_usages cf I st i = Val (Err (NotExists i))).
    { unfold d_count_usages. rewrite (d_try_get_ok _ _ _ HR), M. reflexivity. }
    unfold d_usages, d_has_usages. rewrite K. auto.
  Qed.

  (** ** Deleting lists of links *)
  Fixpoint del_ok (a : astate) (l : list N) : Prop :=
    match l with
    | [] => True
    | i :: l' => a_map a i <> None /\ sp_delete sp a i /\ del_ok (a_delete a i) l'
    end.

  (** The links with the given indices, in that order. *)
  Definition links_at (a : astate) (l : list N) : list link :=
    flat_map (fun i => match a_map a i with Some (s, t) => [mkLink i s t] | None => [] end) l.

  Lemma del_ok_nodup l : forall a, del_ok a l -> NoDup l.
  Proof.
    induction l as [|i l IH]; intros a; cbn [del_ok]; [constructor|].
    intros (_ & _ & K). constructor; [|eapply IH; eauto].
    intros IN. clear IH.
    assert (G : forall l a, a_map a i = None -> del_ok a l -> ~ In i l).
    { clear. induction l as [|j l IH]; intros a M; [simpl; tauto|]. cbn [del_ok]. intros (K1 & _ & K2).
      intros [->|IN]; [congruence|]. apply (IH (a_delete a j)); auto.
      rewrite a_delete_map. unfold upd. destruct (i =? j); auto. }
    eapply (G l (a_delete a i)); eauto. rewrite a_delete_map. apply upd_same.
  Qed.

  Lemma links_at_delete a i l : ~ In i l -> links_at (a_delete a i) l = links_at a l.
  Proof.
    intros NI. unfold links_at. rewrite a_delete_map. induction l as [|j l IH]; [reflexivity|].
    cbn [flat_map]. rewrite IH by (simpl in NI; tauto). rewrite upd_other; [reflexivity|].
    intros ->. apply NI. now left.
  Qed.

  Lemma d_delete_list_ok l : forall st a, R st a -> del_ok a l ->
    exists st', R st' (a_deletes a l) /\
      forall H B (h : uwrite H B) x,
        d_delete_list I (fuse_call h) l st (x, false) =
        Val (st', (told h (links_at a l) x, false), Ok tt).
  Proof.
    induction l as [|i l IH]; intros st a HR D.
    - exists st. split; auto.
    - pose proof (del_ok_nodup _ _ D) as ND. inversion ND as [|? ? NI _]; subst.
      destruct D as (M & P & D). destruct (a_map a i) as [[s t]|] eqn:E; [|congruence].
      destruct (d_delete_with_ok _ _ _ _ _ HR E P) as (st1 & R1 & K & _).
      destruct (IH _ _ R1 D) as (st2 & R2 & K2). exists st2. split; auto.
      intros H B h x. cbn [d_delete_list]. rewrite K. cbn [obind fuse_call].
      cbn [links_at flat_map]. rewrite E. fold (links_at a l). cbn [app told fold_left].
      destruct (h x (mkLink i s t) nothing) as [x' [r|]]; cbn [fst snd obind];
        rewrite K2, links_at_delete by auto; reflexivity.
  Qed.

  Lemma d_delete_list_fail l : forall st a j, R st a ->
    (exists l1 l2, l = l1 ++ j :: l2 /\ del_ok a l1 /\ a_map (a_deletes a l1) j = None) ->
    exists st' l1, R st' (a_deletes a l1) /\
      forall H B (h : uwrite H B) x, exists x',
        d_delete_list I (fuse_call h) l st (x, false) = Val (st', x', Err (NotExists j)).
  Proof.
    intros st a j HR (l1 & l2 & -> & D & M). revert st a HR D M.
    induction l1 as [|i l1 IH]; intros st a HR D M.
    - exists st, []. split; auto. intros. cbn [app d_delete_list].
      rewrite (proj1 (d_delete_none _ _ _ HR M)). cbn. eexists; reflexivity.
    - destruct D as (MI & P & D). destruct (a_map a i) as [[s t]|] eqn:E; [|congruence].
      destruct (d_delete_with_ok _ _ _ _ _ HR E P) as (st1 & R1 & K & _).
      destruct (IH _ _ R1 D M) as (st2 & l1' & R2 & K2). exists st2, (i :: l1'). split; auto.
      intros H B h x. cbn [app d_delete_list]. rewrite K. cbn [obind fuse_call].
      destruct (h x (mkLink i s t) nothing) as [x' [r|]]; cbn [fst snd obind]; apply K2.
  Qed.

  Lemma d_delete_query_ok st a q L : R st a -> visits st q L -> del_ok a (rev (map l_index L)) ->
    exists st', R st' (a_deletes a (rev (map l_index L))) /\
      forall H B (h : uwrite H B) x,
        d_delete_query_with I h q st x = Val (st', told h (links_at a (rev (map l_index L))) x, Ok tt).
  Proof.
    intros HR V D. destruct (d_delete_list_ok _ _ _ HR D) as (st' & R' & K). exists st'. split; auto.
    intros H B h x. unfold d_delete_query_with, d_count_by. rewrite (proj2 V). cbn [obind].
    rewrite (d_each_by_ok _ _ _ _ _ _ _ V), urun_map. cbn [obind app]. rewrite K. reflexivity.
  Qed.

  Lemma d_delete_usages_ok st a i L1 L2 : R st a ->
    visits st [c_any cf; i; c_any cf] L1 -> visits st [c_any cf; c_any cf; i] L2 ->
    let v := rev (map l_index (filter (fun k => negb (l_index k =? i)) L1 ++
                               filter (fun k => negb (l_index k =? i)) L2)) in
    del_ok a v ->
    exists st', R st' (a_deletes a v) /\
      forall H B (h : uwrite H B) x,
        d_delete_usages_with cf I h i st x = Val (st', told h (links_at a v) x, Ok tt).
  Proof.
    intros HR V1 V2 v D. destruct (d_delete_list_ok _ _ _ HR D) as (st' & R' & K). exists st'. split; auto.
    intros H B h x. unfold d_delete_usages_with, d_count_by. rewrite (proj2 V1), (proj2 V2). cbn [obind].
    rewrite (d_each_by_ok _ _ _ _ _ _ _ V1), (urun_filter (fun k => negb (l_index k =? i)) l_index). cbn [obind app].
    rewrite (d_each_by_ok _ _ _ _ _ _ _ V2), (urun_filter (fun k => negb (l_index k =? i)) l_index). cbn [obind].
    rewrite <- map_app. fold v. rewrite K. reflexivity.
  Qed.

  (** ** rebase *)
  Fixpoint upd_ok (a : astate) (l : list (N * (N * N))) : Prop :=
    match l with
    | [] => True
    | (i, (s, t)) :: l' => a_map a i <> None /\ sp_update sp a i s t /\ upd_ok (a_update a i s t) l'
    end.

  (** The updates that rebase makes for one usage. *)
  Definition rebase_steps (old new : N) (u : link) : list (N * (N * N)) :=
    (if l_source u =? old then [(l_index u, (new, l_target u))] else []) ++
    (if l_target u =? old then [(l_index u, (l_source u, new))] else []).

  Lemma upd_ok_app l1 : forall a l2, upd_ok a (l1 ++ l2) <-> upd_ok a l1 /\ upd_ok (a_updates a l1) l2.
  Proof.
    induction l1 as [|[i [s t]] l1 IH]; intros a l2; cbn [app upd_ok]; [tauto|].
    rewrite IH. cbn [a_updates fold_left a_update' fst snd]. unfold a_updates. tauto.
  Qed.

  Lemma fuse_ok {H B} (h : uwrite H B) x b a :
    exists x' o, fuse_call h (x, false) b a = ((x', false), o).
  Proof. cbn. destruct (h x b a) as [x' [r|]]; eauto. Qed.

  Lemma d_rebase_list_ok old new l : forall st a, R st a -> upd_ok a (flat_map (rebase_steps old new) l) ->
    exists st', R st' (a_updates a (flat_map (rebase_steps old new) l)) /\
      forall H B (h : uwrite H B) x, exists x',
        d_rebase_list I (fuse_call h) old new l st (x, false) = Val (st', (x', false), Ok tt).
  Proof.
    induction l as [|u l IH]; intros st a HR D.
    - exists st. split; auto. intros. exists x. reflexivity.
    - cbn [flat_map] in D. apply upd_ok_app in D as [D1 D2]. unfold rebase_steps in D1.
      set (u1 := if l_source u =? old then [(l_index u, (new, l_target u))] else []) in *.
      set (u2 := if l_target u =? old then [(l_index u, (l_source u, new))] else []) in *.
      apply upd_ok_app in D1 as [D11 D12].
      assert (S1 : exists st1, R st1 (a_updates a u1) /\ forall H B (h : uwrite H B) x, exists x' o,
          (if l_source u =? old then d_update_with I (fuse_call h) (l_index u) new (l_target u) st (x, false)
           else Val (st, (x, false), Ok None)) = Val (st1, (x', false), Ok o)).
      { subst u1. destruct (l_source u =? old).
        - destruct D11 as (M & P & _). destruct (d_update_with_ok _ _ _ _ _ HR M P) as (st1 & b & R1 & K & _).
          exists st1. split; auto. intros. rewrite K.
          destruct (fuse_ok h x b (mkLink (l_index u) new (l_target u))) as (x' & o & ->). exists x', o. reflexivity.
        - exists st. split; auto. intros. exists x, None. reflexivity. }
      destruct S1 as (st1 & R1 & K1).
      assert (S2 : exists st2, R st2 (a_updates (a_updates a u1) u2) /\ forall H B (h : uwrite H B) x, exists x' o,
          (if l_target u =? old then d_update_with I (fuse_call h) (l_index u) (l_source u) new st1 (x, false)
           else Val (st1, (x, false), Ok None)) = Val (st2, (x', false), Ok o)).
      { subst u2. destruct (l_target u =? old).
        - destruct D12 as (M & P & _). destruct (d_update_with_ok _ _ _ _ _ R1 M P) as (st2 & b & R2 & K & _).
          exists st2. split; auto. intros. rewrite K.
          destruct (fuse_ok h x b (mkLink (l_index u) (l_source u) new)) as (x' & o & ->). exists x', o. reflexivity.
        - exists st1. split; auto. intros. exists x, None. reflexivity. }
      destruct S2 as (st2 & R2 & K2).
      assert (EQ : a_updates (a_updates a u1) u2 = a_updates a (rebase_steps old new u)).
      { unfold rebase_steps, a_updates. fold u1 u2. now rewrite fold_left_app. }
      rewrite EQ in R2. destruct (IH _ _ R2 D2) as (st3 & R3 & K3).
      exists st3. split.
      + cbn [flat_map]. unfold a_updates in *. rewrite fold_left_app. exact R3.
      + intros H B h x. cbn [d_rebase_list].
        destruct (K1 H B h x) as (x1 & o1 & E1). rewrite E1. cbn [obind].
        destruct (K2 H B h x1) as (x2 & o2 & E2). rewrite E2. cbn [obind]. apply K3.
  Qed.

  Lemma d_rebase_with_ok st a old new L1 L2 : R st a -> old <> new -> a_map a old <> None ->
    visits st [c_any cf; old; c_any cf] L1 -> visits st [c_any cf; c_any cf; old] L2 ->
    let us := flat_map (rebase_steps old new) (filter (fun u => negb (l_index u =? old)) (L1 ++ L2)) in
    upd_ok a us ->
    exists st', R st' (a_updates a us) /\
      (forall H B (h : uwrite H B) x, exists x', d_rebase_with cf I h old new st x = Val (st', x', Ok tt)) /\
      d_rebase cf I old new st = Val (st', Ok new).
  Proof.
    intros HR NE M V1 V2 us D. destruct (d_rebase_list_ok _ _ _ _ _ HR D) as (st' & R' & K).
    exists st'. split; auto.
    assert (G : forall H B (h : uwrite H B) x, exists x', d_rebase_with cf I h old new st x = Val (st', x', Ok tt)).
    { intros H B h x. unfold d_rebase_with. rewrite (d_try_get_ok _ _ _ HR).
      destruct (a_map a old) as [[s t]|]; [|congruence]. cbn [obind].
      destruct (N.eqb_spec old new); [congruence|].
      rewrite (d_each_iter_ok _ _ _ V1), (d_each_iter_ok _ _ _ V2). cbn [obind].
      destruct (K H B h x) as (x' & E). rewrite E. cbn [obind]. exists x'. reflexivity. }
    split; auto. unfold d_rebase. destruct (G unit unit (fun x _ _ => (x, None)) tt) as (x' & E).
    rewrite E. reflexivity.
  Qed.

  Lemma d_rebase_same st a old s t H B (h : uwrite H B) x : R st a -> a_map a old = Some (s, t) ->
    d_rebase_with cf I h old old st x = Val (st, x, Ok tt).
  Proof.
    intros HR M. unfold d_rebase_with. rewrite (d_try_get_ok _ _ _ HR), M. cbn [obind].
    now rewrite N.eqb_refl.
  Qed.

  Lemma d_rebase_none st a old new H B (h : uwrite H B) x : R st a -> a_map a old = None ->
    d_rebase_with cf I h old new st x = Val (st, x, Err (NotExists old)).
  Proof.
    intros HR M. unfold d_rebase_with. rewrite (d_try_get_ok _ _ _ HR), M. reflexivity.
  Qed.
End OK.
