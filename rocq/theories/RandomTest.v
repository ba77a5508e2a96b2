(** The repository's randomized test, for every outcome of its random choices (proofs; the
    statements are repeated in PropRandom.v). *)
From Coq Require Import NArith List Bool Lia Permutation Sorted.
From Verif Require Import Base Trees Lists Spec Iface UnitModel UnitInv UnitOps UnitLinks LinkModel SplitModel Forest
  SplitInv SplitReads SplitOps SplitWrites SplitLinks Doublets Obs DoubletsOK Hist Claims TreeImpl UnitHist SplitHist
  SplitClaims UnitClaims DefaultClaims SplitDefaults.
Import ListNotations.
Open Scope N_scope.

(** What one iteration draws when the store holds that many links: a source and a target
    (rand::random() gave true and gen_range gave the two numbers), or nothing (create).
    doublets/tests/extensions.rs:123-126 *)
Definition draw := N -> option (N * N).
(** gen_range(1..=count) is only asked with at least two links: extensions.rs:124-127 *)
Definition drawn (f : draw) : Prop :=
  forall n s t, f n = Some (s, t) -> 2 <= n /\ 1 <= s <= n /\ 1 <= t <= n.

Section Test.
  Variable (cf : cfg).
  Context {S : Type}.
  Variable (I : LinksI S).

  (** One iteration: extensions.rs:121-141. An error given to unwrap is returned, a failed
      assertion panics. *)
  Definition rt_step (f : draw) (st : S) (created : N) : out (S * result N) :=
    let* n := d_count I st in
    let* (st', r) :=
      match f n with
      | Some (s, t) =>
          let* (st', r) := d_get_or_create cf I s t st in
          Val (st', rmap (fun i => if n <? i then created + 1 else created) r)
      | None =>
          let* (st', r) := d_create I st in
          Val (st', rmap (fun _ => created + 1) r)
      end in
    match r with
    | Err e => Val (st', Err e)
    | Ok c => let* m := d_count I st' in if c =? m then Val (st', Ok c) else Panic
    end.
  Fixpoint rt_steps (fs : list draw) (st : S) (created : N) : out (S * result N) :=
    match fs with
    | [] => Val (st, Ok created)
    | f :: fs =>
        let* (st', r) := rt_step f st created in
        match r with
        | Err e => Val (st', Err e)
        | Ok c => rt_steps fs st' c
        end
    end.
  (** One cycle: extensions.rs:119-146. The fuel of delete_all is more than the links there can be. *)
  Definition rt_cycle (fs : list draw) (st : S) : out (S * result unit) :=
    let* (st', r) := rt_steps fs st 0 in
    match r with
    | Err e => Val (st', Err e)
    | Ok _ =>
        let* (st2, r2) := d_delete_all I (Datatypes.S (length fs)) st' in
        match r2 with
        | Err e => Val (st2, Err e)
        | Ok _ => let* m := d_count I st2 in if m =? 0 then Val (st2, Ok tt) else Panic
        end
    end.
  (** test_random_creations_and_deletions: extensions.rs:114-148, with the draws of each cycle *)
  Fixpoint rt_run (l : list (list draw)) (st : S) : out (S * result unit) :=
    match l with
    | [] => Val (st, Ok tt)
    | fs :: l =>
        let* (st', r) := rt_cycle fs st in
        match r with
        | Err e => Val (st', Err e)
        | Ok _ => rt_run l st'
        end
    end.
End Test.

Section Generic.
  Variables (cf : cfg) (sp : store_spec).
  Context {S : Type}.
  Variables (I : LinksI S) (R : S -> astate -> Prop).
  Hypothesis CF : cfg_ok cf.
  Hypothesis OK : links_ok cf sp I R.
  Hypothesis DD : del_distinct sp.
  Hypothesis CK : count_known sp R.

  (** No index is free and no link refers past the last one. *)
  Definition dense (a : astate) : Prop :=
    a_free a = [] /\ adistinct a /\ forall x s t, a_map a x = Some (s, t) -> s <= a_top a /\ t <= a_top a.
  Hypothesis CRE : forall st a, R st a -> dense a -> sp_create sp a.
  Hypothesis UPD : forall a s t, awf a -> s <> 0 -> t <> 0 -> sp_update sp (a_create a) (a_next a) s t.
  Hypothesis SEA : forall st a s t, R st a -> s <> 0 -> t <> 0 -> s <> c_any cf -> t <> c_any cf ->
    (d_search cf I st s t = Val None /\ forall i, ~ is_link I st i s t) \/
    (exists i, d_search cf I st s t = Val (Some i) /\ is_link I st i s t).

  Lemma dense_count st a : R st a -> dense a -> d_count I st = Val (a_top a).
  Proof.
    intros K (EF & _). unfold d_count, d_count_by. rewrite (count_R0 cf sp I R OK CK _ _ K).
    pose proof (len_alinks_split a (lo_wf _ _ _ _ OK _ _ K)) as LS. rewrite EF in LS. cbn in LS. f_equal. lia.
  Qed.
  Lemma dense_in a x : awf a -> dense a -> (1 <= x <= a_top a <-> a_map a x <> None).
  Proof. intros W (EF & _). rewrite (wf_dom _ W), EF. simpl. tauto. Qed.
  Lemma dense_next a : a_free a = [] -> a_next a = a_top a + 1 /\ a_top (a_create a) = a_top a + 1 /\ a_free (a_create a) = [].
  Proof. intros EF. unfold a_next, a_create. rewrite EF. auto. Qed.
  Lemma dense_create a : awf a -> dense a -> dense (a_create a).
  Proof.
    intros W (EF & D & B). destruct (dense_next a EF) as (EN & ET & EF'). split; auto. rewrite ET.
    assert (M : a_map (a_create a) = upd (a_map a) (a_next a) (Some (0, 0))) by now apply Spec.a_create_map.
    rewrite EN in M. split.
    - intros i j p. rewrite M. intros MI MJ NP.
      destruct (N.eq_dec i (a_top a + 1)) as [->|NI]; [rewrite upd_same in MI; congruence|].
      destruct (N.eq_dec j (a_top a + 1)) as [->|NJ]; [rewrite upd_same in MJ; congruence|].
      rewrite upd_other in MI, MJ by auto. eauto.
    - intros x s t. rewrite M. intros MX.
      destruct (N.eq_dec x (a_top a + 1)) as [->|NX]; [rewrite upd_same in MX; injection MX as <- <-; lia|].
      rewrite upd_other in MX by auto. destruct (B _ _ _ MX). lia.
  Qed.
  Lemma dense_add a s t : awf a -> dense a -> s <= a_top a -> t <= a_top a -> (forall i, a_map a i <> Some (s, t)) ->
    dense (a_update (a_create a) (a_next a) s t).
  Proof.
    intros W (EF & D & B) HS HT NL. destruct (dense_next a EF) as (EN & ET & EF'). split; [exact EF'|].
    assert (M : forall x, a_map (a_update (a_create a) (a_next a) s t) x =
                  if N.eq_dec x (a_next a) then Some (s, t) else a_map a x).
    { intros x. unfold a_update; cbn. rewrite Spec.a_create_map by auto.
      destruct (N.eq_dec x (a_next a)) as [->|NX]; [apply upd_same|]. now rewrite !upd_other by auto. }
    split.
    - intros i j p. rewrite !M. destruct (N.eq_dec i (a_next a)), (N.eq_dec j (a_next a)); intros MI MJ NP; subst; auto.
      + exfalso. injection MI as <-. eapply NL; eauto.
      + exfalso. injection MJ as <-. eapply NL; eauto.
      + eauto.
    - intros x u v. rewrite M. change (a_top (a_update (a_create a) (a_next a) s t)) with (a_top (a_create a)). rewrite ET.
      destruct (N.eq_dec x (a_next a)); intros MX; [injection MX as <- <-; lia|]. destruct (B _ _ _ MX). lia.
  Qed.

  (** What an iteration may give back. *)
  Definition rt_fails (k : N) (e : error) : Prop :=
    e = AllocFailed \/ (e = LimitReached (c_iend cf) /\ c_iend cf < k).

  Lemma full_top a : a_free a = [] -> a_full cf a -> c_iend cf <= a_top a.
  Proof. intros EF F. unfold a_full in F. tauto. Qed.

  Lemma rt_step_ok f st a : R st a -> dense a -> drawn f ->
    (exists st' a', R st' a' /\ dense a' /\ a_top a' <= a_top a + 1 /\
       rt_step cf I f st (a_top a) = Val (st', Ok (a_top a'))) \/
    (exists st' e, rt_fails (a_top a + 1) e /\ rt_step cf I f st (a_top a) = Val (st', Err e)).
  Proof.
    intros K DN DR. pose proof (lo_wf _ _ _ _ OK _ _ K) as W. pose proof DN as (EF & D & B).
    destruct (dense_next a EF) as (EN & ET & EF').
    unfold rt_step. rewrite (dense_count _ _ K DN). cbn [obind].
    destruct (f (a_top a)) as [[s t]|] eqn:EFS.
    - destruct (DR _ _ _ EFS) as (_ & HS & HT).
      assert (LS : a_map a s <> None) by now apply dense_in.
      assert (LT : a_map a t <> None) by now apply dense_in.
      destruct (exists_range cf _ I _ OK _ _ _ CF K LS) as (S0 & SA & _).
      destruct (exists_range cf _ I _ OK _ _ _ CF K LT) as (T0 & TA & _).
      unfold d_get_or_create.
      destruct (SEA _ _ s t K S0 T0 SA TA) as [[E NL]|(i & E & L)]; rewrite E; cbn [obind].
      + destruct (g_create_link_w cf sp I R OK st a s t K (CRE _ _ K DN) (UPD a s t W S0 T0))
          as [(F & ->)|[(st' & _ & _ & ->)|(st' & K' & _ & ->)]]; cbn [obind rmap].
        * right. exists st, (LimitReached (c_iend cf)). split; [right|reflexivity]. split; auto.
          apply (ob_full cf _ I _ OK _ _ K) in F. apply full_top in F; auto. lia.
        * right. exists st', AllocFailed. split; [now left|reflexivity].
        * left. assert (DN' : dense (a_update (a_create a) (a_next a) s t)).
          { apply dense_add; auto; try lia. intros j M. apply (NL j). now apply (ob_link cf _ I _ OK _ _ _ _ _ K). }
          exists st', (a_update (a_create a) (a_next a) s t). sp. sp.
          change (a_top (a_update (a_create a) (a_next a) s t)) with (a_top (a_create a)). rewrite ET. split; [lia|].
          rewrite (dense_count _ _ K' DN'). cbn [obind].
          change (a_top (a_update (a_create a) (a_next a) s t)) with (a_top (a_create a)). rewrite ET, EN.
          destruct (N.ltb_spec (a_top a) (a_top a + 1)); [|lia]. now rewrite N.eqb_refl.
      + left. exists st, a. sp. sp. split; [lia|]. cbn [rmap].
        apply (ob_link cf _ I _ OK _ _ _ _ _ K) in L.
        assert (LI : 1 <= i <= a_top a) by (apply dense_in; congruence).
        rewrite (dense_count _ _ K DN). cbn [obind]. destruct (N.ltb_spec (a_top a) i); [lia|]. now rewrite N.eqb_refl.
    - destruct (create_cases cf sp I R OK st a [] K (CRE _ _ K DN)) as [F E|st' _ _ _ E|st' _ K' E]; unfold d_create.
      + rewrite (d_create_fail I _ _ _ _ E). cbn [obind rmap]. right. exists st, (LimitReached (c_iend cf)).
        split; [right|reflexivity]. split; auto. apply full_top in F; auto. lia.
      + rewrite (d_create_fail I _ _ _ _ E). cbn [obind rmap]. right. exists st', AllocFailed. split; [now left|reflexivity].
      + rewrite (d_create_once I _ _ _ _ _ _ E). cbn [obind rmap]. pose proof (dense_create a W DN) as DN'.
        rewrite (dense_count _ _ K' DN'), ET. cbn [obind]. rewrite N.eqb_refl.
        left. exists st', (a_create a). rewrite ET. sp. sp. split; [lia|reflexivity].
  Qed.

  Lemma rt_steps_ok fs : forall st a, R st a -> dense a -> Forall drawn fs ->
    (exists st' a', R st' a' /\ dense a' /\ a_top a' <= a_top a + N.of_nat (length fs) /\
       rt_steps cf I fs st (a_top a) = Val (st', Ok (a_top a'))) \/
    (exists st' e, rt_fails (a_top a + N.of_nat (length fs)) e /\ rt_steps cf I fs st (a_top a) = Val (st', Err e)).
  Proof.
    induction fs as [|f fs IH]; intros st a K DN DR; cbn [rt_steps length].
    - left. exists st, a. sp. sp. split; [lia|reflexivity].
    - inversion DR as [|? ? D1 D2]; subst.
      destruct (rt_step_ok f st a K DN D1) as [(st1 & a1 & K1 & DN1 & T1 & ->)|(st' & e & F & ->)]; cbn [obind].
      + destruct (IH _ _ K1 DN1 D2) as [(st' & a' & K' & DN' & T' & ->)|(st' & e & F & ->)].
        * left. exists st', a'. sp. sp. split; [lia|reflexivity].
        * right. exists st', e. split; [|reflexivity]. destruct F as [->|[-> F]]; [now left|right; split; auto; lia].
      + right. exists st', e. split; [|reflexivity]. destruct F as [->|[-> F]]; [now left|right; split; auto; lia].
  Qed.

  Lemma dense_empty a : awf a -> (forall i, a_map a i = None) -> dense a /\ a_top a = 0.
  Proof.
    intros W N. destruct (awf_empty_top a W N) as [T F]. repeat split; auto; intros; congruence.
  Qed.

  Lemma rt_cycle_ok fs st a : R st a -> (forall i, a_map a i = None) -> Forall drawn fs ->
    (exists st' a', R st' a' /\ (forall i, a_map a' i = None) /\ rt_cycle cf I fs st = Val (st', Ok tt)) \/
    (exists st' e, rt_fails (N.of_nat (length fs)) e /\ rt_cycle cf I fs st = Val (st', Err e)).
  Proof.
    intros K N DR. destruct (dense_empty a (lo_wf _ _ _ _ OK _ _ K) N) as [DN T]. unfold rt_cycle.
    pose proof (rt_steps_ok fs st a K DN DR) as G. rewrite T in G.
    destruct G as [(st1 & a1 & K1 & DN1 & T1 & ->)|(st' & e & F & ->)]; cbn [obind].
    - destruct DN1 as (EF1 & D1 & B1).
      destruct (g_delete_all_dense_w cf sp I R OK (N.to_nat (a_top a1)) DD CK st1 a1 K1 D1 EF1) as (st2 & a2 & K2 & N2 & G);
        [now rewrite N2Nat.id|].
      rewrite G by lia. cbn [obind]. destruct (dense_empty a2 (lo_wf _ _ _ _ OK _ _ K2) N2) as [DN2 T2].
      rewrite (dense_count _ _ K2 DN2), T2. cbn. left. exists st2, a2. auto.
    - right. exists st', e. split; [|reflexivity]. exact F.
  Qed.

  Lemma rt_run_ok l : forall st a, R st a -> (forall i, a_map a i = None) -> Forall (Forall drawn) l ->
    exists st' r, rt_run cf I l st = Val (st', r) /\
      match r with
      | Ok _ => exists a', R st' a' /\ forall i, a_map a' i = None
      | Err e => exists fs, In fs l /\ rt_fails (N.of_nat (length fs)) e
      end.
  Proof.
    induction l as [|fs l IH]; intros st a K N DR; cbn [rt_run].
    - exists st, (Ok tt). split; auto. eauto.
    - inversion DR as [|? ? D1 D2]; subst.
      destruct (rt_cycle_ok fs st a K N D1) as [(st1 & a1 & K1 & N1 & ->)|(st' & e & F & ->)]; cbn [obind].
      + destruct (IH _ _ K1 N1 D2) as (st' & r & -> & G). exists st', r. split; auto.
        destruct r; auto. destruct G as (fs' & IN & F). exists fs'. split; auto. now right.
      + exists st', (Err e). split; auto. exists fs. split; auto. now left.
  Qed.
End Generic.

(** * C58 *)
(** From any history that left the store empty, the test ends with an empty store or with a
    creation that found no memory or no index left; it never fails an assertion. *)
Lemma L_C58_random_unit cf tops lops st d l :
  let U := unit_links cf tops lops in
  unit_env cf tops lops -> cfg_room cf -> u_hist cf tops lops st d -> (forall i, no_link U st i) ->
  Forall (Forall drawn) l ->
  exists st' r, rt_run cf U l st = Val (st', r) /\
    match r with
    | Ok _ => (exists d', u_hist cf tops lops st' d') /\ forall i, no_link U st' i
    | Err e => exists fs, In fs l /\
        (e = AllocFailed \/ (e = LimitReached (c_iend cf) /\ c_iend cf < N.of_nat (length fs)))
    end.
Proof.
  intros U ENV RM HH NO DR. uopen a K D. pose proof (uh_links_ok _ _ _ ENV) as OK.
  pose proof (e_cf cf tops lops ENV) as CF.
  destruct (rt_run_ok cf _ U _ CF OK (spd_distinct _ (e_spd cf)) (spq_count cf _ _ (i_spq _ _ _ ENV))) with (l := l) (st := st) (a := a)
    as (st' & r & E & G); auto.
  - intros st0 a0 K0 _. now apply (i_spc _ _ _ ENV RM st0).
  - intros a0 s t W _ _. apply e_spu. left. rewrite Spec.a_create_map by auto. apply upd_same.
  - intros st0 a0 s t K0 S0 _ SA TA. exact (g_search cf _ U _ OK (i_spq _ _ _ ENV) st0 a0 s t K0 S0 SA TA).
  - intros i. now apply (ob_none cf _ U _ OK _ _ _ K).
  - exists st', r. split; auto. destruct r; auto. destruct G as (a' & K' & N'). pose proof K' as [_ HH']. split; auto.
    intros i. now apply (ob_none cf _ U _ OK _ _ _ K').
Qed.

Lemma L_C58_random_split cf tops lops st d l :
  let SL := split_links cf tops lops in
  unit_env cf tops lops -> c_iend cf + 1 + c_step cf <= c_tmax cf -> s_hist cf tops lops st d ->
  (forall i, no_link SL st i) -> Forall (Forall drawn) l ->
  exists st' r, rt_run cf SL l st = Val (st', r) /\
    match r with
    | Ok _ => (exists d', s_hist cf tops lops st' d') /\ forall i, no_link SL st' i
    | Err e => exists fs, In fs l /\
        (e = AllocFailed \/ (e = LimitReached (c_iend cf) /\ c_iend cf < N.of_nat (length fs)))
    end.
Proof.
  intros SL ENV RM HH NO DR. shopen a K D. pose proof (sh_links_ok _ _ _ ENV) as OK.
  destruct (rt_run_ok cf _ SL _ (f_cf _ _ _ ENV) OK (sh_del_distinct cf) (sh_count_known cf tops lops)) with (l := l) (st := st) (a := a)
    as (st' & r & E & G); auto.
  - intros st0 a0 K0 (EF & _ & B). pose proof (lo_wf _ _ _ _ OK _ _ K0) as W. cbn. split; [now apply room_room|].
    intros x s t M. destruct (B _ _ _ M). unfold a_next. rewrite EF. lia.
  - intros a0 s t W S0 T0. apply fresh_update; auto. congruence.
  - intros st0 a0 s t K0 S0 T0 SA TA. apply (sh_search cf tops lops ENV st0 a0); auto. congruence.
  - intros i. now apply (ob_none cf _ SL _ OK _ _ _ K).
  - exists st', r. split; auto. destruct r; auto. destruct G as (a' & K' & N'). pose proof K' as [_ HH']. split; auto.
    intros i. now apply (ob_none cf _ SL _ OK _ _ _ K').
Qed.

(** Draws that create, draw a new pair, draw an old pair, and refer to the latest link. *)
Definition ex_draws : list (list draw) :=
  let c : draw := fun _ => None in
  let p s t : draw := fun n => if (2 <=? n) && (s <=? n) && (t <=? n) then Some (s, t) else None in
  let latest : draw := fun n => if 2 <=? n then Some (n, 1) else None in
  [[c]; [c; c; p 1 2; p 1 2; latest; c; latest]; [p 1 1; c; p 1 1; p 2 1]].
Lemma ex_draws_drawn : Forall (Forall drawn) ex_draws.
Proof.
  unfold ex_draws. cbv zeta.
  repeat first [apply Forall_nil|apply Forall_cons]; intros n s t; cbn; try discriminate;
    repeat match goal with |- context [?x <=? ?y] => destruct (N.leb_spec x y) end; cbn; try discriminate;
    intros E; injection E as <- <-; lia.
Qed.
Definition left_links {S} (o : out (S * result unit)) (cnt : S -> out N) : option (out N * result unit) :=
  match o with Val (st, r) => Some (cnt st, r) | _ => None end.
(** The example draws do what they are named after: the second cycle ends with six links. *)
Lemma L_C58_nonvacuous :
  u_hist ex_cf ref_tree_ops ref_list_ops ex_start [] /\ (forall i, no_link ex_U ex_start i) /\
  s_hist ex_cf ref_tree_ops ref_list_ops ex_sstart [] /\ (forall i, no_link ex_S ex_sstart i) /\
  Forall (Forall drawn) ex_draws /\
  match rt_steps ex_cf ex_U (nth 1 ex_draws []) ex_start 0, rt_steps ex_cf ex_S (nth 1 ex_draws []) ex_sstart 0 with
  | Val (st, Ok 6), Val (st', Ok 6) =>
      is_link ex_U st 3 1 2 /\ is_link ex_U st 4 3 1 /\ is_link ex_U st 6 5 1 /\
      is_link ex_S st' 3 1 2 /\ is_link ex_S st' 4 3 1 /\ is_link ex_S st' 6 5 1
  | _, _ => False
  end /\
  left_links (rt_run ex_cf ex_U ex_draws ex_start) (fun st => li_count ex_U st []) = Some (Val 0, Ok tt) /\
  left_links (rt_run ex_cf ex_S ex_draws ex_sstart) (fun st => li_count ex_S st []) = Some (Val 0, Ok tt).
Proof.
  assert (US : u_start ex_cf ex_start).
  { exists (fun _ _ => true). unfold ex_start. vm_compute. reflexivity. }
  assert (HU : u_hist ex_cf ref_tree_ops ref_list_ops ex_start []) by (apply hist_start; exact US).
  assert (HS : s_hist ex_cf ref_tree_ops ref_list_ops ex_sstart []) by (apply histc_start; exact ex_s_start).
  sp. split; [|split; [exact HS|split; [|split; [exact ex_draws_drawn|]]]].
  - intros i. apply (ob_none ex_cf _ ex_U _ (e_ok _ _ _ ex_env) _ a_empty); [|reflexivity].
    apply u_start_inv with (tops := ref_tree_ops) (lops := ref_list_ops); [exact ex_env|exact US].
  - intros i. apply (ob_none ex_cf _ ex_S _ (f_ok _ _ _ ex_env) _ a_empty); [|reflexivity].
    apply s_start_inv with (tops := ref_tree_ops) (lops := ref_list_ops); [exact ex_env|exact ex_s_start].
  - vm_compute. repeat split.
Qed.
