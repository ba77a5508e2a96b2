(** Stopping in the middle of an update of the single-memory store: the writes of
    update_links (store.rs:469-520) as a sequence of steps. *)
From Coq Require Import NArith List Bool Lia Permutation.
From Verif Require Import Base Trees Lists TreeInv Spec Iface UnitModel UnitInv UnitOps UnitLinks
  Doublets DoubletsOK Obs Hist Claims TreeImpl UnitHist.
From Verif Require SplitInv.
Import ListNotations.
Open Scope N_scope.

Fixpoint run_steps (l : list (ust -> out ust)) (st : ust) : out ust :=
  match l with [] => Val st | f :: l' => let* st' := f st in run_steps l' st' end.

(** The writes of update_links to an existing link, in order: detach_source (483-489),
    detach_target (490-496), the two fields (498-500), attach_source (503-508),
    attach_target (509-514).  The writes inside a tree operation are those of the external
    crate [trees] and are not distinguished. *)
Definition update_steps (tops : tree_ops) (i old_s old_t s t : N) : list (ust -> out ust) :=
  [when (negb (old_s =? 0)) (fun st => u_detach_source tops st i);
   when (negb (old_t =? 0)) (fun st => u_detach_target tops st i);
   (fun st => let* _ := rd (u_len st) (u_data st) i in Val (set_data st (upd (u_data st) i (s, t))));
   when (negb (s =? 0)) (fun st => u_attach_source tops st i);
   when (negb (t =? 0)) (fun st => u_attach_target tops st i)].

(** The memory when the process stops after [k] of these steps; [half_written] is the
    point between the writes of the two fields (lines 499 and 500). *)
Definition stopped (tops : tree_ops) (st : ust) (i old_s old_t s t : N) (k : nat) (st' : ust) : Prop :=
  run_steps (firstn k (update_steps tops i old_s old_t s t)) st = Val st'.
Definition half_written (tops : tree_ops) (st : ust) (i old_s old_t s t : N) (st' : ust) : Prop :=
  exists st2, stopped tops st i old_s old_t s t 2 st2 /\
    st' = set_data st2 (upd (u_data st2) i (s, snd (u_data st2 i))).

Lemma run_steps_app l1 l2 st : run_steps (l1 ++ l2) st = (let* st' := run_steps l1 st in run_steps l2 st').
Proof.
  revert st. induction l1 as [|f l1 IH]; intros st; [reflexivity|]. cbn [app run_steps].
  destruct (f st); cbn [obind]; auto.
Qed.
Lemma update_steps_relink tops i os ot s t st : run_steps (update_steps tops i os ot s t) st = u_relink tops st i os ot s t.
Proof.
  unfold update_steps, u_relink. cbn [run_steps].
  destruct (when (negb (os =? 0)) _ st) as [st1| | |]; cbn [obind]; auto.
  destruct (when (negb (ot =? 0)) _ st1) as [st2| | |]; cbn [obind]; auto.
  destruct (rd (u_len st2) (u_data st2) i) as [p| | |]; cbn [obind]; auto.
  destruct (when (negb (s =? 0)) _ _) as [st4| | |]; cbn [obind]; auto.
  destruct (when (negb (t =? 0)) _ st4) as [st5| | |]; cbn [obind]; auto.
Qed.

(** What remains true of the memory at such a point, as far as count and each depend on it:
    link [i] has the fields [p], and [b] tells whether it is in the tree of sources. *)
Record crep (st : ust) (a : astate) (i : N) (p : N * N) (b : bool) : Prop := {
  cr_alloc : h_alloc st = a_top a;
  cr_len : a_top a < u_len st;
  cr_first : h_first st = hd 0 (a_free a);
  cr_free : h_free st = N.of_nat (length (a_free a));
  cr_data : forall j q, j <> i -> a_map a j = Some q -> u_data st j = q;
  cr_hole : forall j, In j (a_free a) -> fst (u_data st j) <> 0 /\ nz (u_src st j) = 0;
  cr_src : forall j s t, j <> i -> a_map a j = Some (s, t) -> s <> 0 -> nz (u_src st j) <> 0;
  cr_p : u_data st i = p;
  cr_b : if b then nz (u_src st i) <> 0 else nz (u_src st i) = 0
}.

Definition visible (p : N * N) (b : bool) : bool := (fst p =? 0) || b.
(** What such a memory shows. *)
Definition a_seen (a : astate) (i : N) (p : N * N) (b : bool) : astate :=
  mkA (a_top a) (a_free a) (upd (a_map a) i (if visible p b then Some p else None)).

Section Crash.
  Variables (cf : cfg) (tops : tree_ops) (lops : list_ops).
  Hypothesis ENV : unit_env cf tops lops.
  Notation U := (unit_links cf tops lops).
  Let CF : cfg_ok cf := e_cf cf tops lops ENV.
  Let TOK : tree_ops_ok tops := proj1 (proj2 ENV).

  Lemma crep_get st a i p b j : awf a -> a_map a i <> None -> crep st a i p b ->
    u_get_link cf st j = Val (olink j (a_map (a_seen a i p b) j)).
  Proof.
    intros W M C. destruct C. unfold u_get_link, u_exists, u_is_unused.
    assert (UH : u_header st = Val tt) by (unfold u_header; destruct (N.ltb_spec 0 (u_len st)); [auto|lia]).
    rewrite UH. cbn [obind]. rewrite (ok_istart _ CF), cr_alloc0, cr_first0.
    assert (RI : 1 <= i <= a_top a /\ ~ In i (a_free a)) by now apply (wf_dom _ W).
    cbn [a_map a_seen].
    destruct (N.leb_spec 1 j) as [J1|J1], (N.leb_spec j (a_top a)) as [J2|J2]; cbn [andb obind].
    2-4: (rewrite upd_other by lia; destruct (a_map a j) eqn:E; [|reflexivity]; exfalso;
          assert (K : a_map a j <> None) by congruence; apply (wf_dom _ W) in K; lia).
    destruct (N.eqb_spec (hd 0 (a_free a)) j) as [E|E]; cbn [negb obind].
    - assert (IF : In j (a_free a)) by (destruct (a_free a); cbn in E; [lia|left; auto]).
      rewrite upd_other by (intros ->; tauto).
      destruct (a_map a j) eqn:EM; [exfalso|reflexivity].
      assert (K : a_map a j <> None) by congruence. apply (wf_dom _ W) in K. tauto.
    - rewrite !rdu_ok by lia. cbn [obind]. destruct (N.eq_dec j i) as [->|NE].
      + rewrite upd_same. rewrite cr_p0. unfold visible. destruct (N.eqb_spec (fst p) 0) as [F|F]; cbn [negb orb].
        * rewrite andb_false_r. cbn [negb obind]. destruct p; reflexivity.
        * rewrite andb_true_r. destruct b.
          -- destruct (N.eqb_spec (nz (u_src st i)) 0); [contradiction|]. cbn [negb obind]. destruct p; reflexivity.
          -- rewrite cr_b0. reflexivity.
      + rewrite upd_other by auto. destruct (a_map a j) as [[x y]|] eqn:EM.
        * rewrite (cr_data0 _ _ NE EM). cbn [fst snd]. destruct (N.eqb_spec x 0) as [->|X0]; cbn [negb].
          -- rewrite andb_false_r. reflexivity.
          -- pose proof (cr_src0 _ _ _ NE EM X0). destruct (N.eqb_spec (nz (u_src st j)) 0); [contradiction|]. reflexivity.
        * assert (IF : In j (a_free a)).
          { destruct (in_dec N.eq_dec j (a_free a)); auto. exfalso.
            assert (K : a_map a j <> None) by (apply (wf_dom _ W); auto). congruence. }
          destruct (cr_hole0 _ IF) as [K1 K2]. rewrite K2. destruct (N.eqb_spec (fst (u_data st j)) 0); [contradiction|]. reflexivity.
  Qed.

  Lemma crep_each st a i p b H (h : rhandler H) x : awf a -> a_map a i <> None -> crep st a i p b ->
    u_each cf h [] st x = Val (run_handler h (alinks (a_seen a i p b)) x).
  Proof.
    intros W M C. unfold u_each, u_each_all. pose proof (cr_len _ _ _ _ _ C).
    unfold u_header. destruct (N.ltb_spec 0 (u_len st)); [|lia]. cbn [obind].
    rewrite (cr_alloc _ _ _ _ _ C). unfold alinks. change (a_top (a_seen a i p b)) with (a_top a).
    generalize (range1 (a_top a)). intros l. revert x. induction l as [|j l IH]; intros x; [reflexivity|].
    cbn [u_each_idx flat_map]. rewrite (crep_get _ _ _ _ _ j W M C). cbn [obind].
    destruct (a_map (a_seen a i p b) j) as [[y z]|]; cbn [olink app run_handler]; [|apply IH].
    destruct (h x (mkLink j y z)) as [x' []]; [apply IH|reflexivity].
  Qed.

  Lemma crep_count st a i p b : awf a -> crep st a i p b -> u_count cf st [] = Val (N.of_nat (length (alinks a))).
  Proof.
    intros W C. unfold u_count, u_get_total. pose proof (cr_len _ _ _ _ _ C).
    unfold u_header. destruct (N.ltb_spec 0 (u_len st)); [|lia]. cbn [obind].
    rewrite (cr_alloc _ _ _ _ _ C), (cr_free _ _ _ _ _ C).
    assert (L : N.of_nat (length (alinks a)) + N.of_nat (length (a_free a)) = a_top a) by now apply SplitInv.alinks_count_wf.
    rewrite csub_ok by lia. f_equal. lia.
  Qed.

  (** ** The points of an update *)
  Definition in_tree (k : nat) (os s : N) : bool :=
    match k with O => negb (os =? 0) | 1%nat | 2%nat | 3%nat => false | _ => negb (s =? 0) end.
  Definition fields (k : nat) (os ot s t : N) : N * N :=
    match k with O | 1%nat | 2%nat => (os, ot) | _ => (s, t) end.

  Lemma urep_crep st a i os ot : uinv cf st a -> a_map a i = Some (os, ot) -> crep st a i (os, ot) (negb (os =? 0)).
  Proof.
    intros [R W] M. constructor.
    - apply R.
    - apply R.
    - eapply ur_first; eauto.
    - eapply ur_count; eauto.
    - intros j q _. apply (ur_data _ _ _ R).
    - intros j IF. split; [eapply lrep_prev_nonzero; eauto; apply R|].
      rewrite (ur_src0 _ _ _ R j); [reflexivity| |].
      + apply (ur_free _ _ _ R) in IF. lia.
      + intros K. apply psrc_dom in K. apply (ur_dom _ _ _ R) in K. tauto.
    - intros j x y _ E X0. apply (tree_inv_size _ _ _ _ _ (ur_src _ _ _ R)). exists x, y. auto.
    - now apply (ur_data _ _ _ R).
    - destruct (N.eqb_spec os 0) as [->|O0]; cbn [negb].
      + rewrite (ur_src0 _ _ _ R i); [reflexivity| |].
        * assert (K : a_map a i <> None) by congruence. apply (ur_dom _ _ _ R) in K. lia.
        * intros (x & y & E & K). congruence.
      + apply (tree_inv_size _ _ _ _ _ (ur_src _ _ _ R)). exists os, ot. auto.
  Qed.
  Lemma crep_tgt st a i p b c : crep st a i p b -> crep (set_tgt st c) a i p b.
  Proof. intros []. constructor; auto. Qed.
  Lemma crep_data st a i p b q : awf a -> a_map a i <> None -> crep st a i p b -> crep (set_data st (upd (u_data st) i q)) a i q b.
  Proof.
    intros W M C. assert (RI : 1 <= i <= a_top a /\ ~ In i (a_free a)) by now apply (wf_dom _ W).
    destruct C. constructor; auto; cbn [u_data set_data u_src].
    - unfold h_alloc. cbn [u_data set_data]. rewrite upd_other by lia. exact cr_alloc0.
    - intros j x J E. rewrite upd_other by auto. auto.
    - intros j IF. rewrite upd_other by (intros ->; tauto). auto.
    - apply upd_same.
  Qed.
  (** the source column after a tree operation on [i] *)
  Lemma crep_src st a i p b c (b' : bool) : awf a -> a_map a i <> None -> crep st a i p b ->
    src_half (set_src st c) (fun j => (j = i /\ b' = true) \/ (j <> i /\ psrc a j)) ->
    nl (c 0) = nl (u_src st 0) -> nr (c 0) = nr (u_src st 0) -> crep (set_src st c) a i p b'.
  Proof.
    intros W M C [T Z] NL NR. assert (RI : 1 <= i <= a_top a /\ ~ In i (a_free a)) by now apply (wf_dom _ W).
    destruct C. constructor; auto; cbn [u_data set_src u_src] in *.
    - unfold h_first. cbn [u_src set_src]. now rewrite NR.
    - unfold h_free. cbn [u_src set_src]. now rewrite NL.
    - intros j IF. split; [apply cr_hole0; auto|]. rewrite (Z j); [reflexivity| |].
      + apply (wf_free _ W) in IF. lia.
      + intros [[-> _]|[_ K]]; [tauto|]. apply psrc_dom in K. apply (wf_dom _ W) in K. tauto.
    - intros j x y J E X0. apply (tree_inv_size _ _ _ _ _ T). right. split; auto. exists x, y. auto.
    - destruct b'.
      + apply (tree_inv_size _ _ _ _ _ T). auto.
      + rewrite (Z i); [reflexivity|lia|]. intros [[_ K]|[K _]]; [discriminate|congruence].
  Qed.

  Lemma when_tgt b f st st' : (forall s s', f s = Val s' -> exists c, s' = set_tgt s c) -> when b f st = Val st' -> exists c, st' = set_tgt st c.
  Proof. intros F. unfold when. destruct b; [apply F|]. intros E. injection E as <-. exists (u_tgt st). now destruct st. Qed.
  Lemma detach_tgt_shape i s s' : u_detach_target tops s i = Val s' -> exists c, s' = set_tgt s c.
  Proof.
    unfold u_detach_target. destruct (u_header s); try discriminate. cbn [obind].
    destruct (t_detach tops _ _ _ _) as [[c r]| | |]; try discriminate. cbn [obind]. intros E. injection E as <-. eauto.
  Qed.
  Lemma attach_tgt_shape i s s' : u_attach_target tops s i = Val s' -> exists c, s' = set_tgt s c.
  Proof.
    unfold u_attach_target. destruct (u_header s); try discriminate. cbn [obind].
    destruct (t_attach tops _ _ _ _) as [[c r]| | |]; try discriminate. cbn [obind]. intros E. injection E as <-. eauto.
  Qed.

  Lemma stopped_exists st a i os ot s t k : uinv cf st a -> a_map a i = Some (os, ot) -> detachable a i ->
    exists st', stopped tops st i os ot s t k st'.
  Proof.
    intros [R W] M D. destruct (u_relink_ok cf tops TOK st a i os ot s t R M D) as (st' & E & _).
    rewrite <- update_steps_relink in E. rewrite <- (firstn_skipn k (update_steps tops i os ot s t)) in E. rewrite run_steps_app in E.
    unfold stopped. destruct (run_steps (firstn k _) st) as [st1| | |]; try discriminate. eauto.
  Qed.

  Lemma stopped_crep st a i os ot s t k st' : uinv cf st a -> a_map a i = Some (os, ot) -> detachable a i ->
    stopped tops st i os ot s t k st' -> crep st' a i (fields k os ot s t) (in_tree k os s).
  Proof.
    intros K M DET E. pose proof (urep_crep st a i os ot K M) as C0. destruct K as [R W].
    assert (MN : a_map a i <> None) by congruence.
    assert (RI : 1 <= i <= a_top a /\ ~ In i (a_free a)) by now apply (wf_dom _ W).
    assert (I0 : i <> 0) by lia.
    assert (HH : u_header st = Val tt) by (eapply u_header_ok; eauto).
    assert (PS : negb (os =? 0) = true <-> psrc a i).
    { rewrite neqb0. split; [intros; exists os, ot; auto|]. intros (x & y & E' & K). congruence. }
    unfold stopped in E. destruct k as [|k]; [injection E as <-; exact C0|].
    unfold update_steps in E. cbn [firstn run_steps] in E.
    destruct (src_detach tops TOK st (psrc a) i (negb (os =? 0)) HH) as (c1 & E1 & H1 & A1 & B1); auto.
    { split; [apply (ur_src _ _ _ R)|apply (ur_src0 _ _ _ R)]. }
    { intros NB j (js & jt & J1 & J2) K.
      rewrite (key_src_data _ _ _ _ _ _ R J1), (key_src_data _ _ _ _ _ _ R M) in K.
      destruct DET as [D|D]; [apply neqb0 in NB; congruence|].
      inversion K; subst. eapply D; eauto. }
    rewrite E1 in E. cbn [obind] in E.
    assert (C1 : crep (set_src st c1) a i (os, ot) false).
    { eapply crep_src; eauto. destruct H1 as [T Z]. split.
      - eapply tree_inv_ext; [| | |exact T]; auto. intros j. intuition congruence.
      - intros j J NJ. apply Z; auto. }
    destruct k as [|k]; [injection E as <-; exact C1|]. cbn [firstn run_steps] in E.
    destruct (when (negb (ot =? 0)) _ _) as [st2| | |] eqn:E2; try discriminate. cbn [obind] in E.
    apply when_tgt in E2 as [c2 ->]; [|apply detach_tgt_shape].
    pose proof (crep_tgt _ _ _ _ _ c2 C1) as C2.
    destruct k as [|k]; [injection E as <-; exact C2|]. cbn [firstn run_steps] in E.
    rewrite rd_ok in E by (pose proof (cr_len _ _ _ _ _ C2); lia). cbn [obind] in E.
    set (st2 := set_tgt (set_src st c1) c2) in *. set (st3 := set_data st2 (upd (u_data st2) i (s, t))) in *.
    pose proof (crep_data _ _ _ _ _ (s, t) W MN C2 : crep st3 a i (s, t) false) as C3.
    destruct k as [|k]; [injection E as <-; exact C3|]. cbn [firstn run_steps] in E.
    assert (SH3 : src_half st3 (fun j => j <> i /\ psrc a j)) by (apply src_half_data; [exact H1|tauto]).
    destruct (src_attach tops TOK st3 _ i (negb (s =? 0)) HH SH3 I0) as (c4 & E4 & H4 & A4 & B4); [tauto|].
    rewrite E4 in E. cbn [obind] in E.
    assert (C4 : crep (set_src st3 c4) a i (s, t) (negb (s =? 0))) by (eapply crep_src; eauto).
    destruct k as [|k]; [injection E as <-; exact C4|]. cbn [firstn run_steps] in E.
    destruct (when (negb (t =? 0)) _ _) as [st5| | |] eqn:E5; try discriminate. cbn [obind] in E.
    apply when_tgt in E5 as [c5 ->]; [|apply attach_tgt_shape].
    pose proof (crep_tgt _ _ _ _ _ c5 C4) as C5.
    assert (st' = set_tgt (set_src st3 c4) c5) as -> by (destruct k; injection E as <-; reflexivity). exact C5.
  Qed.

  (** Opening the memory again keeps all this. *)
  Lemma crep_open st a i p b orc st' : awf a -> a_map a i <> None -> crep st a i p b -> a_top a < c_step cf ->
    u_open cf (u_persist st orc) = Val (Ok st') -> crep st' a i p b.
  Proof.
    intros W M C TS E. assert (RI : 1 <= i <= a_top a /\ ~ In i (a_free a)) by now apply (wf_dom _ W).
    assert (HA : h_alloc (u_persist st orc) = a_top a) by exact (cr_alloc _ _ _ _ _ C).
    destruct (u_open_cond cf tops lops ENV _ _ E) as (T & O1 & O2); [lia|].
    unfold u_open, u_alloc_mem in E. rewrite O1 in E. pose proof (ok_page _ CF). pose proof (ok_step _ CF).
    unfold u_header at 1 in E. cbn [u_len] in E. destruct (N.ltb_spec 0 (c_page cf)); [|lia]. cbn [obind u_orc] in E.
    change (h_alloc (mkU (c_page cf) _ (u_data (u_persist st orc)) (u_src (u_persist st orc)) (u_tgt (u_persist st orc)))) with (h_alloc st) in E.
    rewrite (cr_alloc _ _ _ _ _ C) in E. rewrite N.max_l in E by lia. rewrite O2 in E.
    unfold u_header in E. cbn [u_len] in E. destruct (N.ltb_spec 0 (c_step cf)); [|lia]. cbn [obind] in E.
    rewrite csub_ok in E by lia. cbn [obind] in E. rewrite ctry_ok in E by lia. cbn [obind] in E. injection E as <-.
    destruct C. constructor.
    - exact cr_alloc0.
    - cbn [u_len set_reserved set_data]. lia.
    - exact cr_first0.
    - exact cr_free0.
    - intros j q J E. cbn [u_data set_reserved set_data u_persist]. rewrite upd_other; auto. intros ->.
      assert (K : a_map a 0 <> None) by congruence. apply (wf_dom _ W) in K. lia.
    - intros j IF. cbn [u_data u_src set_reserved set_data u_persist]. rewrite upd_other; auto. apply (wf_free _ W) in IF. lia.
    - exact cr_src0.
    - cbn [u_data set_reserved set_data u_persist]. rewrite upd_other by lia. auto.
    - exact cr_b0.
  Qed.

  Lemma crep_reopens st a i p b orc : crep st a i p b -> a_top a < c_step cf -> c_step cf - 1 <= c_tmax cf ->
    orc 0%nat (c_page cf) = true -> orc 1%nat (c_step cf) = true ->
    exists st', u_open cf (u_persist st orc) = Val (Ok st').
  Proof.
    intros C TS TM O1 O2. pose proof (ok_page _ CF). pose proof (ok_step _ CF).
    unfold u_open, u_alloc_mem. cbn [u_orc u_persist]. rewrite O1.
    unfold u_header at 1. cbn [u_len]. destruct (N.ltb_spec 0 (c_page cf)); [|lia]. cbn [obind u_orc].
    change (h_alloc (mkU (c_page cf) (fun k => orc (S k)) (u_data (u_persist st orc)) (u_src (u_persist st orc)) (u_tgt (u_persist st orc)))) with (h_alloc st).
    rewrite (cr_alloc _ _ _ _ _ C), N.max_l by lia. cbn [u_orc]. rewrite O2.
    unfold u_header. cbn [u_len]. destruct (N.ltb_spec 0 (c_step cf)); [|lia]. cbn [obind].
    rewrite csub_ok by lia. cbn [obind]. rewrite ctry_ok by lia. cbn [obind]. eauto.
  Qed.

  Lemma half_crep st a i os ot s t st' : uinv cf st a -> a_map a i = Some (os, ot) -> detachable a i ->
    half_written tops st i os ot s t st' -> crep st' a i (s, ot) false.
  Proof.
    intros K M D (st2 & E & ->). pose proof (stopped_crep _ _ _ _ _ _ _ _ _ K M D E) as C. cbn [fields in_tree] in C.
    pose proof (cr_p _ _ _ _ _ C) as P. rewrite P. cbn [snd]. destruct K as [_ W]. eapply crep_data; eauto. congruence.
  Qed.

  Lemma seen_length a i p b : awf a -> a_map a i <> None ->
    length (alinks a) = (length (alinks (a_seen a i p b)) + (if visible p b then 0 else 1))%nat.
  Proof.
    intros W M. assert (RI : 1 <= i <= a_top a /\ ~ In i (a_free a)) by now apply (wf_dom _ W).
    set (a0 := mkA (a_top a) (a_free a) (upd (a_map a) i None)).
    assert (G : forall m, m i <> None -> (forall j, j <> i -> m j = a_map a j) ->
      length (flat_map (fun j => match m j with Some (s, t) => [mkLink j s t] | None => [] end) (range1 (a_top a))) = S (length (alinks a0))).
    { intros m MI MJ. pose proof (len_alinks_gen m (a_map a0) i (range1 (a_top a))) as G. cbv zeta in G.
      rewrite G; [|apply nodup_range1|intros j J; cbn; rewrite upd_other by auto; symmetry; auto|exact MI|cbn; apply upd_same].
      destruct (in_dec N.eq_dec i (range1 (a_top a))) as [|K]; [rewrite PeanoNat.Nat.add_1_r; reflexivity|]. exfalso. apply K. apply in_range1. lia. }
    unfold alinks at 1. rewrite (G (a_map a) M) by auto.
    unfold a_seen. destruct (visible p b).
    - unfold alinks at 2. cbn [a_map a_top]. rewrite (G (upd (a_map a) i (Some p))); [lia|rewrite upd_same; discriminate|].
      intros j J. now apply upd_other.
    - fold a0. lia.
  Qed.
End Crash.

Definition count_visits : rhandler N := fun n _ => (n + 1, Continue).
Lemma run_count_visits l : forall n, run_handler count_visits l n = (n + N.of_nat (length l), Continue).
Proof.
  induction l as [|k l IH]; intros n; [cbn; now rewrite N.add_0_r|]. cbn [run_handler count_visits length]. rewrite IH. f_equal. lia.
Qed.
