(** The memory of a single-memory store that was reopened after calls were interrupted: the
    representation of UnitInv.v with the node sets of the two trees left open, so that a link may
    be missing from either tree, and what the operations do on it. *)
From Coq Require Import NArith List Bool Lia Permutation.
From Verif Require Import Base Trees Lists TreeInv Spec Iface UnitModel UnitInv UnitOps UnitLinks
  Doublets DoubletsOK Obs Hist Claims TreeImpl UnitHist Crash CrashWrites CrashClaims.
Import ListNotations.
Open Scope N_scope.

(** [P] and [Q] are the nodes of the trees of sources and of targets. *)
Record wrep (cf : cfg) (st : ust) (a : astate) (P Q : N -> Prop) : Prop := {
  wr_alloc : h_alloc st = a_top a;
  wr_iend : a_top a <= c_iend cf;
  wr_len : a_top a < u_len st;
  wr_res1 : 1 <= h_reserved st;
  wr_res2 : h_reserved st <= u_len st <= h_reserved st + 1;
  wr_list : lrep (u_lhdr st) (u_data st) (a_free a);
  wr_dom : forall i, a_map a i <> None <-> (1 <= i <= a_top a /\ ~ In i (a_free a));
  wr_free : forall i, In i (a_free a) -> 1 <= i <= a_top a;
  wr_data : forall i p, a_map a i = Some p -> u_data st i = p;
  wr_src : src_half st P;
  wr_tgt : tgt_half st Q;
  wr_P : forall i, P i -> psrc a i;
  wr_Q : forall i, Q i -> ptgt a i;
  wr_beyond : forall i, a_top a < i -> u_data st i = (0, 0);
  wr_res8 : nz (u_tgt st 0) = 0
}.

(** Well-formedness as in Spec.v, but the last allocated slot may be free: a deletion that
    stopped before it had lowered [allocated] past it leaves it so. *)
Record aset (a : astate) : Prop := {
  as_dom : forall i, a_map a i <> None <-> (1 <= i <= a_top a /\ ~ In i (a_free a));
  as_free : forall i, In i (a_free a) -> 1 <= i <= a_top a;
  as_nodup : NoDup (a_free a)
}.
Lemma awf_aset a : awf a -> aset a.
Proof. intros [A B C _]. constructor; auto. Qed.
Lemma wrep_aset cf st a P Q : wrep cf st a P Q -> aset a.
Proof. intros R. constructor; apply R. Qed.
Lemma aset_none a i : aset a -> (~ (1 <= i <= a_top a) \/ In i (a_free a)) -> a_map a i = None.
Proof.
  intros W H. destruct (a_map a i) eqn:E; auto. exfalso.
  assert (K : a_map a i <> None) by congruence. apply (as_dom _ W) in K. tauto.
Qed.
Lemma aset_some a i p : aset a -> a_map a i = Some p -> 1 <= i <= a_top a /\ ~ In i (a_free a).
Proof. intros W H. apply (as_dom _ W). congruence. Qed.
Lemma aset_create a : aset a -> aset (a_create a).
Proof.
  intros W. unfold a_create. destruct (a_free a) as [|x fl] eqn:E.
  - constructor; simpl.
    + intros i. rewrite upd_none_iff by discriminate. rewrite (as_dom _ W), E. simpl. lia.
    + tauto.
    + constructor.
  - pose proof (as_nodup _ W) as ND. rewrite E in ND. inversion ND; subst.
    assert (X : 1 <= x <= a_top a) by (apply (as_free _ W); rewrite E; now left).
    constructor; simpl.
    + intros i. rewrite upd_none_iff by discriminate. rewrite (as_dom _ W), E. simpl. split.
      * intros [->|[K1 K2]]; [auto|tauto].
      * intros [K1 K2]. destruct (N.eq_dec i x); [auto|right]. split; auto. intros [?|?]; congruence.
    + intros i Hi. apply (as_free _ W). rewrite E. now right.
    + auto.
Qed.
Lemma aset_update a i s t : aset a -> a_map a i <> None -> aset (a_update a i s t).
Proof.
  intros W Hi. constructor; simpl; try apply W.
  - intros j. rewrite upd_none_iff by discriminate. rewrite <- (as_dom _ W).
    split; [intros [->|]; auto|auto].
Qed.
Lemma aset_delete a i : aset a -> a_map a i <> None -> aset (a_delete a i).
Proof.
  intros W Hi. pose proof (proj1 (as_dom _ W i) Hi) as [B NF].
  unfold a_delete. destruct (N.ltb_spec i (a_top a)) as [L|L].
  - constructor; simpl.
    + intros j. rewrite upd_none_none, (as_dom _ W). split.
      * intros [K1 [K2 K3]]. split; auto. intros [?|?]; [congruence|tauto].
      * intros [K1 K2]. repeat split; try tauto; intuition.
    + intros j [<-|K]; [auto|now apply (as_free _ W)].
    + constructor; auto. apply W.
  - assert (i = a_top a) by lia. subst i. clear L B.
    set (m := upd (a_map a) (a_top a) None). set (top := top_of m (N.to_nat (a_top a))).
    assert (TL : top <= a_top a) by (pose proof (top_of_le m (N.to_nat (a_top a))); unfold top; lia).
    assert (TN : top = 0 \/ m top <> None) by apply top_of_some.
    assert (TNF : ~ In top (a_free a)).
    { intros K. destruct TN as [T0|TN].
      - apply (as_free _ W) in K. lia.
      - unfold m in TN. rewrite upd_none_none, (as_dom _ W) in TN. tauto. }
    constructor; simpl.
    + intros j. rewrite filter_In. split.
      * intros K. assert (K' := K). unfold m in K'. rewrite upd_none_none, (as_dom _ W) in K'.
        assert (j <= top).
        { destruct (N.le_gt_cases j top); auto. exfalso. apply K. unfold m.
          eapply top_of_above; eauto. lia. }
        split; [lia|tauto].
      * intros [K1 K2]. unfold m. rewrite upd_none_none, (as_dom _ W).
        assert (NT : j <> a_top a).
        { intros ->. assert (top = a_top a) by lia. destruct TN as [T0|TN]; [lia|].
          rewrite H in TN. unfold m in TN. rewrite upd_same in TN. congruence. }
        split; auto. split; [lia|]. intros K. apply K2. split; auto.
        apply N.ltb_lt. assert (j <> top) by congruence. lia.
    + intros j K. apply filter_In in K as [K1 K2]. apply N.ltb_lt in K2.
      apply (as_free _ W) in K1. lia.
    + apply NoDup_filter, W.
Qed.
Lemma alinks_count_set a : aset a -> N.of_nat (length (alinks a)) + N.of_nat (length (a_free a)) = a_top a.
Proof.
  intros W. unfold alinks. rewrite alinks_length_gen.
  set (f := fun i => match a_map a i with Some _ => true | None => false end).
  assert (P : Permutation (a_free a) (filter (fun x => negb (f x)) (range1 (a_top a)))).
  { apply NoDup_Permutation.
    - apply W.
    - apply NoDup_filter, nodup_range1.
    - intros i. rewrite filter_In, in_range1. unfold f. split.
      + intros K. split; [now apply (as_free _ W)|]. rewrite (aset_none a i W); auto.
      + intros [K1 K2]. destruct (a_map a i) eqn:E; [discriminate|].
        destruct (in_dec N.eq_dec i (a_free a)); auto. exfalso.
        assert (K : a_map a i <> None) by (apply (as_dom _ W); auto). congruence. }
  rewrite (Permutation_length P).
  pose proof (filter_partition f (range1 (a_top a))) as Q. rewrite length_range1 in Q. lia.
Qed.
(** A link with a source that is in no tree of sources; a link with a target that is in no tree
    of targets. *)
Definition gone (a : astate) (P : N -> Prop) (i : N) : Prop := psrc a i /\ ~ P i.
Definition astray (a : astate) (Q : N -> Prop) (i : N) : Prop := ptgt a i /\ ~ Q i.

Lemma urep_wrep cf st a : urep cf st a -> wrep cf st a (psrc a) (ptgt a).
Proof.
  intros R. constructor; try apply R; auto.
  - split; apply R.
  - split; apply R.
Qed.
Lemma src_half_ext st P P' : (forall i, P i <-> P' i) -> src_half st P -> src_half st P'.
Proof.
  intros X [T Z]. split.
  - eapply tree_inv_ext; [exact X| | |exact T]; auto.
  - intros i I0 K. apply Z; auto. now rewrite X.
Qed.
Lemma tgt_half_ext st P P' : (forall i, P i <-> P' i) -> tgt_half st P -> tgt_half st P'.
Proof.
  intros X [T Z]. split.
  - eapply tree_inv_ext; [exact X| | |exact T]; auto.
  - intros i I0 K. apply Z; auto. now rewrite X.
Qed.
Lemma wrep_ext cf st a a' P P' Q Q' :
  a_top a' = a_top a -> a_free a' = a_free a -> (forall i, a_map a' i = a_map a i) ->
  (forall i, P i <-> P' i) -> (forall i, Q i <-> Q' i) ->
  wrep cf st a P Q -> wrep cf st a' P' Q'.
Proof.
  intros E1 E2 E3 XP XQ R. destruct R. constructor; rewrite ?E1, ?E2; auto.
  - intros i. rewrite E3. auto.
  - intros i p. rewrite E3. auto.
  - eapply src_half_ext; eauto.
  - eapply tgt_half_ext; eauto.
  - intros i K. apply (psrc_ext a a'); auto. apply wr_P0. now apply XP.
  - intros i K. apply (ptgt_ext a a'); auto. apply wr_Q0. now apply XQ.
Qed.

Section W.
  Variables (cf : cfg) (tops : tree_ops) (lops : list_ops).
  Hypothesis ENV : unit_env cf tops lops.
  Notation U := (unit_links cf tops lops).
  Let CF : cfg_ok cf := e_cf cf tops lops ENV.
  Let TOK : tree_ops_ok tops := proj1 (proj2 ENV).
  Let LOK : list_ops_ok lops := proj2 (proj2 ENV).

  Lemma w_header st a P Q : wrep cf st a P Q -> u_header st = Val tt.
  Proof. intros R. pose proof (wr_len _ _ _ _ _ R). unfold u_header. destruct (N.ltb_spec 0 (u_len st)); [auto|lia]. Qed.
  Lemma w_none st a P Q i : wrep cf st a P Q -> In i (a_free a) -> a_map a i = None.
  Proof.
    intros R K. destruct (a_map a i) eqn:E; auto. exfalso.
    assert (K' : a_map a i <> None) by congruence. apply (wr_dom _ _ _ _ _ R) in K'. tauto.
  Qed.
  Lemma w_inP st a P Q i : wrep cf st a P Q -> 1 <= i -> {nz (u_src st i) = 0 /\ ~ P i} + {nz (u_src st i) <> 0 /\ P i}.
  Proof.
    intros R I1. destruct (wr_src _ _ _ _ _ R) as [T Z]. destruct (N.eq_dec (nz (u_src st i)) 0) as [E|E].
    - left. split; auto. intros K. exact (tree_inv_size _ _ _ _ _ T K E).
    - right. split; auto. destruct T as (t & T1 & T2 & T3 & T4).
      destruct (in_dec N.eq_dec i (elems t)) as [K|K]; [now apply T4|]. exfalso. apply E. rewrite Z; [reflexivity|lia|].
      intros K'. apply K. now apply T4.
  Qed.
  Lemma w_inQ st a P Q i : wrep cf st a P Q -> 1 <= i -> {nz (u_tgt st i) = 0 /\ ~ Q i} + {nz (u_tgt st i) <> 0 /\ Q i}.
  Proof.
    intros R I1. destruct (wr_tgt _ _ _ _ _ R) as [T Z]. destruct (N.eq_dec (nz (u_tgt st i)) 0) as [E|E].
    - left. split; auto. intros K. exact (tree_inv_size _ _ _ _ _ T K E).
    - right. split; auto. destruct T as (t & T1 & T2 & T3 & T4).
      destruct (in_dec N.eq_dec i (elems t)) as [K|K]; [now apply T4|]. exfalso. apply E. rewrite Z; [reflexivity|lia|].
      intros K'. apply K. now apply T4.
  Qed.
  Lemma w_range st a P Q i : wrep cf st a P Q -> a_map a i <> None -> 1 <= i <= a_top a.
  Proof. intros R K. now apply (wr_dom _ _ _ _ _ R) in K. Qed.
  Lemma w_Prange st a P Q i : wrep cf st a P Q -> P i -> 1 <= i <= a_top a.
  Proof. intros R K. apply (w_range _ _ _ _ _ R). now apply psrc_dom, (wr_P _ _ _ _ _ R). Qed.
  Lemma w_Qrange st a P Q i : wrep cf st a P Q -> Q i -> 1 <= i <= a_top a.
  Proof. intros R K. apply (w_range _ _ _ _ _ R). now apply ptgt_dom, (wr_Q _ _ _ _ _ R). Qed.

  (** What is shown: the links that are not gone. *)
  Definition shown (st : ust) (a : astate) (i : N) : option (N * N) :=
    match a_map a i with
    | Some (s, t) => if negb (s =? 0) && (nz (u_src st i) =? 0) then None else Some (s, t)
    | None => None
    end.
  Lemma shown_some st a P Q i s t : wrep cf st a P Q ->
    (shown st a i = Some (s, t) <-> a_map a i = Some (s, t) /\ ~ gone a P i).
  Proof.
    intros R. unfold shown, gone, psrc. destruct (a_map a i) as [[x y]|] eqn:E; [|split; [discriminate|intros [K _]; discriminate]].
    assert (I1 : 1 <= i) by (apply (w_range _ _ _ _ i R); congruence).
    destruct (N.eqb_spec x 0) as [->|X0]; cbn [negb andb].
    - split; [intros K; split; auto; intros [(u & v & K1 & K2) _]; congruence|tauto].
    - destruct (w_inP _ _ _ _ _ R I1) as [[Z NP]|[Z PI]].
      + rewrite Z. cbn. split; [discriminate|]. intros [_ K]. exfalso. apply K. split; auto. exists x, y. auto.
      + destruct (N.eqb_spec (nz (u_src st i)) 0); [contradiction|]. split; [intros K; split; auto; tauto|tauto].
  Qed.
  Lemma shown_none st a P Q i : wrep cf st a P Q ->
    (shown st a i = None <-> a_map a i = None \/ gone a P i).
  Proof.
    intros R. destruct (shown st a i) as [[s t]|] eqn:E.
    - apply (shown_some _ _ _ _ _ _ _ R) in E as [E1 E2]. split; [discriminate|]. intros [K|K]; [congruence|tauto].
    - split; auto. intros _. destruct (a_map a i) as [[s t]|] eqn:M; auto. right.
      assert (I1 : 1 <= i) by (apply (w_range _ _ _ _ i R); congruence).
      unfold shown in E. rewrite M in E. destruct (N.eqb_spec s 0) as [->|S0]; [discriminate|]. cbn [negb andb] in E.
      destruct (w_inP _ _ _ _ _ R I1) as [[Z NP]|[Z PI]].
      + split; auto. exists s, t. auto.
      + destruct (N.eqb_spec (nz (u_src st i)) 0); [contradiction|discriminate].
  Qed.

  Lemma w_unused st a P Q i : wrep cf st a P Q -> 1 <= i <= a_top a ->
    u_is_unused st i = Val (match shown st a i with Some _ => false | None => true end).
  Proof.
    intros R Hi. unfold u_is_unused. rewrite (w_header _ _ _ _ R). cbn [obind].
    rewrite (wr_alloc _ _ _ _ _ R). destruct (wr_list _ _ _ _ _ R) as (_ & Z0 & LF & _). cbn [lfirst u_lhdr] in LF. rewrite LF.
    destruct (N.leb_spec i (a_top a)); [|lia]. pose proof (wr_len _ _ _ _ _ R).
    destruct (N.eqb_spec (hd 0 (a_free a)) i) as [E|E]; cbn [negb andb].
    - destruct (a_free a) as [|x fl] eqn:EF; cbn [hd] in E; [lia|].
      unfold shown. rewrite (w_none _ _ _ _ i R); [reflexivity|]. rewrite EF, E. now left.
    - rewrite !rdu_ok by lia. cbn [obind]. unfold shown.
      destruct (a_map a i) as [[s t]|] eqn:EM.
      + rewrite (wr_data _ _ _ _ _ R _ _ EM). cbn [fst]. rewrite andb_comm.
        destruct (negb (s =? 0) && (nz (u_src st i) =? 0)); reflexivity.
      + assert (IF : In i (a_free a)).
        { destruct (in_dec N.eq_dec i (a_free a)); auto. exfalso.
          assert (K : a_map a i <> None) by (apply (wr_dom _ _ _ _ _ R); auto). congruence. }
        destruct (w_inP _ _ _ _ _ R (proj1 Hi)) as [[Z _]|[_ PI]].
        * rewrite Z. pose proof (lrep_prev_nonzero _ _ _ _ (wr_list _ _ _ _ _ R) IF).
          destruct (N.eqb_spec (fst (u_data st i)) 0); [congruence|reflexivity].
        * apply (wr_P _ _ _ _ _ R), psrc_dom in PI. congruence.
  Qed.
  Lemma w_exists st a P Q i : wrep cf st a P Q ->
    u_exists cf st i = Val (match shown st a i with Some _ => true | None => false end).
  Proof.
    intros R. unfold u_exists. rewrite (w_header _ _ _ _ R). cbn [obind].
    rewrite (ok_istart _ CF), (wr_alloc _ _ _ _ _ R).
    destruct (N.leb_spec 1 i); destruct (N.leb_spec i (a_top a)); cbn [andb].
    2-4: (unfold shown; destruct (a_map a i) as [[s t]|] eqn:E; [exfalso; assert (K : a_map a i <> None) by congruence;
           apply (w_range _ _ _ _ _ R) in K; lia|reflexivity]).
    rewrite (w_unused _ _ _ _ _ R) by lia. cbn [obind]. destruct (shown st a i); reflexivity.
  Qed.
  Lemma w_get st a P Q i : wrep cf st a P Q -> u_get_link cf st i = Val (olink i (shown st a i)).
  Proof.
    intros R. unfold u_get_link. rewrite (w_exists _ _ _ _ i R). cbn [obind].
    destruct (shown st a i) as [[s t]|] eqn:E; [|reflexivity]. apply (shown_some _ _ _ _ _ _ _ R) in E as [E _].
    assert (K : a_map a i <> None) by congruence. apply (w_range _ _ _ _ _ R) in K.
    pose proof (wr_len _ _ _ _ _ R). rewrite rdu_ok by lia. cbn [obind].
    rewrite (wr_data _ _ _ _ _ R _ _ E). reflexivity.
  Qed.

  (** ** The steps of an update *)
  Lemma w_set_src st a P Q P' c : wrep cf st a P Q -> src_half (set_src st c) P' ->
    nl (c 0) = nl (u_src st 0) -> nr (c 0) = nr (u_src st 0) -> (forall j, P' j -> psrc a j) ->
    wrep cf (set_src st c) a P' Q.
  Proof.
    intros R H A B X. destruct R. constructor; auto.
    unfold u_lhdr, h_first, h_last, h_free in *. cbn [u_src u_tgt u_data set_src] in *. rewrite A, B. exact wr_list0.
  Qed.
  Lemma w_set_tgt st a P Q Q' c : wrep cf st a P Q -> tgt_half (set_tgt st c) Q' ->
    nr (c 0) = nr (u_tgt st 0) -> nz (c 0) = nz (u_tgt st 0) -> (forall j, Q' j -> ptgt a j) ->
    wrep cf (set_tgt st c) a P Q'.
  Proof.
    intros R H A B X. destruct R. constructor; auto.
    - unfold u_lhdr, h_first, h_last, h_free in *. cbn [u_src u_tgt u_data set_tgt] in *. rewrite A. exact wr_list0.
    - cbn [u_tgt set_tgt]. now rewrite B.
  Qed.
  Lemma w_set_data st a P Q i s t : wrep cf st a P Q -> a_map a i <> None -> ~ P i -> ~ Q i ->
    wrep cf (set_data st (upd (u_data st) i (s, t))) (a_update a i s t) P Q.
  Proof.
    intros R M NP NQ. pose proof (w_range _ _ _ _ _ R M) as RI. assert (NF : ~ In i (a_free a)) by now apply (wr_dom _ _ _ _ _ R) in M.
    destruct R. constructor; cbn [a_top a_free a_map a_update u_len u_src u_tgt u_data set_data]; auto.
    - unfold h_alloc. cbn [u_data set_data]. rewrite upd_other by lia. exact wr_alloc0.
    - unfold h_reserved. cbn [u_data set_data]. rewrite upd_other by lia. exact wr_res3.
    - unfold h_reserved. cbn [u_data set_data u_len]. rewrite upd_other by lia. exact wr_res4.
    - change (u_lhdr (set_data st (upd (u_data st) i (s, t)))) with (u_lhdr st).
      eapply lrep_ext; [|exact wr_list0]. intros y Hy. apply upd_other. intros ->. tauto.
    - intros j. rewrite upd_none_iff by discriminate. rewrite wr_dom0. split; [intros [->|K]; auto|auto].
    - intros j p. unfold upd. destruct (N.eqb_spec j i) as [->|NE]; [congruence|]. apply wr_data0.
    - now apply src_half_data.
    - now apply tgt_half_data.
    - intros j K. unfold psrc. cbn [a_map a_update]. rewrite upd_other by (intros ->; auto). now apply wr_P0.
    - intros j K. unfold ptgt. cbn [a_map a_update]. rewrite upd_other by (intros ->; auto). now apply wr_Q0.
    - intros j Hj. rewrite upd_other by lia. auto.
  Qed.

  (** A link with its fields in both trees, its pair in no other node. *)
  Definition sound (a : astate) (P Q : N -> Prop) (i : N) : Prop := ~ gone a P i /\ ~ astray a Q i.
  Definition lone (a : astate) (P Q : N -> Prop) (i : N) : Prop :=
    a_map a i = Some (0, 0) \/ forall j p, P j \/ Q j -> a_map a i = Some p -> a_map a j = Some p -> j = i.

  (** Whether [i] is in the tree of sources, of targets, when the process stops at the point. *)
  Definition in_src (p : point) (os s : N) : Prop :=
    match p with After 0 => os <> 0 | After 1 | After 2 | After 3 | BetweenFields => False | After _ => s <> 0 end.
  Definition in_tgt (p : point) (ot t : N) : Prop :=
    match p with After 0 | After 1 => ot <> 0 | After 2 | After 3 | After 4 | BetweenFields => False | After _ => t <> 0 end.
  Definition put (P : N -> Prop) (i : N) (b : Prop) (j : N) : Prop := (j = i /\ b) \/ (j <> i /\ P j).

  Lemma w_point st a P Q i os ot s t p : wrep cf st a P Q -> a_map a i = Some (os, ot) -> sound a P Q i -> lone a P Q i ->
    exists st', at_point tops st i os ot s t p st' /\
      wrep cf st' (a_update a i (fst (stored p os ot s t)) (snd (stored p os ot s t))) (put P i (in_src p os s)) (put Q i (in_tgt p ot t)).
  Proof.
    intros R M [SG SA] LO. assert (MN : a_map a i <> None) by congruence. pose proof (w_range _ _ _ _ _ R MN) as RI.
    assert (I0 : i <> 0) by lia. pose proof (w_header _ _ _ _ R) as HH.
    assert (PS : negb (os =? 0) = true <-> P i).
    { rewrite neqb0. split.
      - intros K. destruct (w_inP _ _ _ _ _ R (proj1 RI)) as [[_ NP]|[_ K']]; auto. exfalso. apply SG. split; auto. exists os, ot. auto.
      - intros K. apply (wr_P _ _ _ _ _ R) in K as (x & y & K1 & K2). congruence. }
    assert (PT : negb (ot =? 0) = true <-> Q i).
    { rewrite neqb0. split.
      - intros K. destruct (w_inQ _ _ _ _ _ R (proj1 RI)) as [[_ NP]|[_ K']]; auto. exfalso. apply SA. split; auto. exists os, ot. auto.
      - intros K. apply (wr_Q _ _ _ _ _ R) in K as (x & y & K1 & K2). congruence. }
    assert (MU : forall j x y, a_map (a_update a i x y) j = upd (a_map a) i (Some (x, y)) j) by reflexivity.
    (* the state before *)
    assert (R0 : wrep cf st (a_update a i os ot) (put P i (os <> 0)) (put Q i (ot <> 0))).
    { eapply wrep_ext; [| | | | |exact R]; auto.
      - intros j. rewrite MU. unfold upd. destruct (N.eqb_spec j i) as [->|]; congruence.
      - intros j. unfold put. rewrite <- neqb0, PS. destruct (N.eq_dec j i) as [->|]; intuition.
      - intros j. unfold put. rewrite <- neqb0, PT. destruct (N.eq_dec j i) as [->|]; intuition. }
    destruct (src_detach tops TOK st P i (negb (os =? 0)) HH (wr_src _ _ _ _ _ R) I0 PS) as (c1 & E1 & H1 & A1 & B1).
    { intros NB j Pj K. pose proof (wr_P _ _ _ _ _ R _ Pj) as (js & jt & J1 & J2).
      unfold key_src in K. rewrite (wr_data _ _ _ _ _ R _ _ J1), (wr_data _ _ _ _ _ R _ _ M) in K. cbn [fst snd] in K.
      destruct LO as [D|D]; [apply neqb0 in NB; congruence|]. injection K as -> ->. eapply D; eauto. }
    assert (R1 : wrep cf (set_src st c1) a (put P i False) Q).
    { eapply w_set_src; [exact R| |auto|auto|].
      - eapply src_half_ext; [|exact H1]. intros j. unfold put. tauto.
      - intros j [[_ []]|[_ K]]. now apply (wr_P _ _ _ _ _ R). }
    set (st1 := set_src st c1) in *.
    destruct (tgt_detach tops TOK st1 Q i (negb (ot =? 0)) HH (wr_tgt _ _ _ _ _ R1) I0 PT) as (c2 & E2 & H2 & A2 & B2).
    { intros NB j Qj K. pose proof (wr_Q _ _ _ _ _ R _ Qj) as (js & jt & J1 & J2).
      unfold key_tgt in K. rewrite (wr_data _ _ _ _ _ R1 _ _ J1), (wr_data _ _ _ _ _ R1 _ _ M) in K. cbn [fst snd] in K.
      destruct LO as [D|D]; [apply neqb0 in NB; congruence|]. injection K as -> ->. eapply D; eauto. }
    assert (R2 : wrep cf (set_tgt st1 c2) a (put P i False) (put Q i False)).
    { eapply w_set_tgt; [exact R1| |auto|auto|].
      - eapply tgt_half_ext; [|exact H2]. intros j. unfold put. tauto.
      - intros j [[_ []]|[_ K]]. now apply (wr_Q _ _ _ _ _ R). }
    set (st2 := set_tgt st1 c2) in *.
    assert (NP : ~ put P i False i) by (unfold put; tauto). assert (NQ : ~ put Q i False i) by (unfold put; tauto).
    assert (SAME : forall st' P' Q', wrep cf st' a P' Q' -> wrep cf st' (a_update a i os ot) P' Q').
    { intros st' P' Q'. apply wrep_ext; auto; try tauto. intros j. rewrite MU. unfold upd. destruct (N.eqb_spec j i) as [->|]; congruence. }
    pose proof (w_set_data _ _ _ _ i s t R2 MN NP NQ) as R3. set (st3 := set_data st2 (upd (u_data st2) i (s, t))) in *.
    assert (E3 : rd (u_len st2) (u_data st2) i = Val (u_data st2 i)) by (apply rd_ok; pose proof (wr_len _ _ _ _ _ R2); lia).
    destruct (src_attach tops TOK st3 _ i (negb (s =? 0)) HH (wr_src _ _ _ _ _ R3) I0 NP) as (c4 & E4 & H4 & A4 & B4).
    assert (R4 : wrep cf (set_src st3 c4) (a_update a i s t) (put P i (s <> 0)) (put Q i False)).
    { eapply w_set_src; [exact R3| |auto|auto|].
      - eapply src_half_ext; [|exact H4]. intros j. unfold put. rewrite neqb0. tauto.
      - intros j [[-> K]|[NE K]]; unfold psrc; rewrite MU.
        + rewrite upd_same. exists s, t. auto.
        + rewrite upd_other by auto. now apply (wr_P _ _ _ _ _ R). }
    set (st4 := set_src st3 c4) in *.
    destruct (tgt_attach tops TOK st4 _ i (negb (t =? 0)) HH (wr_tgt _ _ _ _ _ R4) I0 NQ) as (c5 & E5 & H5 & A5 & B5).
    assert (R5 : wrep cf (set_tgt st4 c5) (a_update a i s t) (put P i (s <> 0)) (put Q i (t <> 0))).
    { eapply w_set_tgt; [exact R4| |auto|auto|].
      - eapply tgt_half_ext; [|exact H5]. intros j. unfold put. rewrite neqb0. tauto.
      - intros j [[-> K]|[NE K]]; unfold ptgt; rewrite MU.
        + rewrite upd_same. exists s, t. auto.
        + rewrite upd_other by auto. now apply (wr_Q _ _ _ _ _ R). }
    set (st5 := set_tgt st4 c5) in *.
    destruct p as [k|]; cbn [at_point stored in_src in_tgt].
    - unfold stopped, update_steps. destruct k as [|k]; [exists st; split; [reflexivity|exact R0]|]. cbn [firstn run_steps]. rewrite E1. cbn [obind].
      destruct k as [|k].
      { exists st1. split; [reflexivity|]. apply SAME. eapply wrep_ext; [| | | | |exact R1]; auto; try tauto.
        intros j. unfold put. rewrite <- neqb0, PT. destruct (N.eq_dec j i) as [->|]; intuition. }
      cbn [firstn run_steps]. rewrite E2. cbn [obind].
      destruct k as [|k]; [exists st2; split; [reflexivity|]; apply SAME; exact R2|]. cbn [firstn run_steps]. fold st2. rewrite E3. cbn [obind]. fold st3.
      destruct k as [|k]; [exists st3; split; [reflexivity|exact R3]|]. cbn [firstn run_steps]. fold st3. rewrite E4. cbn [obind]. fold st4.
      destruct k as [|k]; [exists st4; split; [reflexivity|exact R4]|]. cbn [firstn run_steps]. fold st4. rewrite E5. cbn [obind]. fold st5.
      exists st5. split; [|exact R5]. now destruct k.
    - unfold half_written, stopped, update_steps. cbn [firstn run_steps]. rewrite E1. cbn [obind]. rewrite E2. cbn [obind fst snd].
      eexists. split; [exists st2; split; [reflexivity|reflexivity]|].
      replace (snd (u_data st2 i)) with ot; [apply w_set_data; auto|].
      now rewrite (wr_data _ _ _ _ _ R2 _ _ M).
  Qed.
  Lemma at_point_det st i os ot s t p st1 st2 : at_point tops st i os ot s t p st1 -> at_point tops st i os ot s t p st2 -> st1 = st2.
  Proof.
    destruct p as [k|]; cbn [at_point]; unfold half_written, stopped; [congruence|].
    intros (x & E1 & ->) (y & E2 & ->). assert (x = y) by congruence. now subst.
  Qed.
  Lemma w_relink st a P Q i os ot s t : wrep cf st a P Q -> a_map a i = Some (os, ot) -> sound a P Q i -> lone a P Q i ->
    exists st', u_relink tops st i os ot s t = Val st' /\
      wrep cf st' (a_update a i s t) (put P i (s <> 0)) (put Q i (t <> 0)).
  Proof.
    intros R M S L. destruct (w_point st a P Q i os ot s t (After 5) R M S L) as (st' & E & R').
    exists st'. split; [|exact R']. cbn [at_point] in E. unfold stopped in E. rewrite <- update_steps_relink. exact E.
  Qed.

  (** ** The free list, as in UnitOps.v; the trees keep their nodes *)
  Lemma w_half_move st st' a P Q : wrep cf st a P Q ->
    (forall j, P j \/ Q j -> u_data st' j = u_data st j) ->
    (forall j, j <> 0 -> u_src st' j = u_src st j) -> (forall j, j <> 0 -> u_tgt st' j = u_tgt st j) ->
    h_sroot st' = h_sroot st -> h_troot st' = h_troot st -> src_half st' P /\ tgt_half st' Q.
  Proof.
    intros R D S T ES ET. destruct (wr_src _ _ _ _ _ R) as [T1 Z1]. destruct (wr_tgt _ _ _ _ _ R) as [T2 Z2]. split; split.
    - rewrite ES. eapply tree_inv_ext; [| | |exact T1]; [tauto| |].
      + intros j K. unfold key_src. now rewrite D by auto.
      + intros j K. apply S. apply (w_Prange _ _ _ _ _ R) in K. lia.
    - intros j J K. rewrite S by auto. auto.
    - rewrite ET. eapply tree_inv_ext; [| | |exact T2]; [tauto| |].
      + intros j K. unfold key_tgt. now rewrite D by auto.
      + intros j K. apply T. apply (w_Qrange _ _ _ _ _ R) in K. lia.
    - intros j J K. rewrite T by auto. auto.
  Qed.
  Lemma w_node st a P Q j : wrep cf st a P Q -> P j \/ Q j -> exists p, a_map a j = Some p /\ p <> (0, 0).
  Proof.
    intros R [K|K]; [apply (wr_P _ _ _ _ _ R) in K|apply (wr_Q _ _ _ _ _ R) in K]; destruct K as (x & y & K1 & K2); exists (x, y); (split; [auto|congruence]).
  Qed.

  Lemma w_unused_detach st a P Q i : wrep cf st a P Q -> In i (a_free a) ->
    exists st', u_unused_detach lops st i = Val st' /\
      wrep cf st' (mkA (a_top a) (lremove i (a_free a)) (upd (a_map a) i (Some (0, 0)))) P Q.
  Proof.
    intros R HI. unfold u_unused_detach.
    destruct (l_detach_ok _ LOK _ _ _ _ (wr_list _ _ _ _ _ R) HI) as (h & d & E & L1 & L2 & L3).
    rewrite E. cbn [obind]. eexists. split; [reflexivity|].
    destruct (list_half_frame st h d) as (F1 & F2 & F3 & F4 & F5 & F6).
    assert (IR := wr_free _ _ _ _ _ R _ HI). assert (IN := w_none _ _ _ _ _ R HI).
    assert (Z0 : ~ In 0 (a_free a)) by (intros K; apply (wr_free _ _ _ _ _ R) in K; lia).
    assert (D0 : d 0 = u_data st 0) by auto.
    assert (DM : forall j p, a_map a j = Some p -> d j = u_data st j).
    { intros j p K. apply L3. assert (K' : a_map a j <> None) by congruence. apply (wr_dom _ _ _ _ _ R) in K'. tauto. }
    destruct (w_half_move st (set_lhdr st h d) a P Q R) as [SH TH]; auto.
    { intros j K. destruct (w_node _ _ _ _ _ R K) as (p & K1 & _). cbn [u_data set_lhdr]. eauto. }
    constructor; cbn [a_top a_free a_map]; try exact SH; try exact TH.
    - unfold h_alloc. cbn [u_data set_lhdr]. rewrite D0. apply R.
    - apply R.
    - apply R.
    - unfold h_reserved. cbn [u_data set_lhdr]. rewrite D0. apply R.
    - unfold h_reserved. cbn [u_data set_lhdr u_len]. rewrite D0. apply R.
    - rewrite F6. exact L1.
    - intros j. rewrite upd_none_iff by discriminate. rewrite (wr_dom _ _ _ _ _ R), in_lremove.
      destruct (N.eq_dec j i) as [->|]; [tauto|]. tauto.
    - intros j K. apply in_lremove in K. apply (wr_free _ _ _ _ _ R). tauto.
    - intros j p. cbn [u_data set_lhdr]. unfold upd. destruct (N.eqb_spec j i) as [->|]; [congruence|].
      intros K. rewrite (DM _ _ K). now apply (wr_data _ _ _ _ _ R).
    - intros j K. apply (wr_P _ _ _ _ _ R) in K. unfold psrc in *. cbn [a_map]. rewrite upd_other; auto.
      intros ->. destruct K as (x & y & K & _). congruence.
    - intros j K. apply (wr_Q _ _ _ _ _ R) in K. unfold ptgt in *. cbn [a_map]. rewrite upd_other; auto.
      intros ->. destruct K as (x & y & K & _). congruence.
    - intros j Hj. cbn [u_data set_lhdr]. rewrite L3 by (intros K; apply (wr_free _ _ _ _ _ R) in K; lia).
      apply (wr_beyond _ _ _ _ _ R). exact Hj.
    - rewrite F5. apply R.
  Qed.

  Lemma w_unused_attach st a P Q i : wrep cf st a P Q -> a_map a i = Some (0, 0) ->
    exists st', u_unused_attach lops st i = Val st' /\
      wrep cf st' (mkA (a_top a) (i :: a_free a) (upd (a_map a) i None)) P Q.
  Proof.
    intros R EM.
    assert (DOM : 1 <= i <= a_top a /\ ~ In i (a_free a)) by (apply (wr_dom _ _ _ _ _ R); congruence).
    destruct DOM as [IR NI]. unfold u_unused_attach.
    destruct (l_attach_ok _ LOK _ _ _ i (wr_list _ _ _ _ _ R)) as (h & d & E & L1 & L3); [lia|auto|].
    rewrite E. cbn [obind]. eexists. split; [reflexivity|].
    destruct (list_half_frame st h d) as (F1 & F2 & F3 & F4 & F5 & F6).
    assert (Z0 : ~ In 0 (a_free a)) by (intros K; apply (wr_free _ _ _ _ _ R) in K; lia).
    assert (D0 : d 0 = u_data st 0) by (apply L3; [lia|auto]).
    assert (DM : forall j p, j <> i -> a_map a j = Some p -> d j = u_data st j).
    { intros j p N K. apply L3; auto. assert (K' : a_map a j <> None) by congruence. apply (wr_dom _ _ _ _ _ R) in K'. tauto. }
    assert (NE : forall j, P j \/ Q j -> j <> i).
    { intros j K ->. destruct (w_node _ _ _ _ _ R K) as (p & K1 & K2). congruence. }
    destruct (w_half_move st (set_lhdr st h d) a P Q R) as [SH TH]; auto.
    { intros j K. destruct (w_node _ _ _ _ _ R K) as (p & K1 & _). cbn [u_data set_lhdr]. eauto. }
    constructor; cbn [a_top a_free a_map]; try exact SH; try exact TH.
    - unfold h_alloc. cbn [u_data set_lhdr]. rewrite D0. apply R.
    - apply R.
    - apply R.
    - unfold h_reserved. cbn [u_data set_lhdr]. rewrite D0. apply R.
    - unfold h_reserved. cbn [u_data set_lhdr u_len]. rewrite D0. apply R.
    - rewrite F6. exact L1.
    - intros j. rewrite upd_none_none. rewrite (wr_dom _ _ _ _ _ R). cbn [In]. intuition.
    - intros j [<-|K]; [lia|]. now apply (wr_free _ _ _ _ _ R).
    - intros j p. cbn [u_data set_lhdr]. unfold upd. destruct (N.eqb_spec j i) as [->|]; [congruence|].
      intros K. rewrite (DM _ _ n K). now apply (wr_data _ _ _ _ _ R).
    - intros j K. unfold psrc. cbn [a_map]. rewrite upd_other by auto. now apply (wr_P _ _ _ _ _ R).
    - intros j K. unfold ptgt. cbn [a_map]. rewrite upd_other by auto. now apply (wr_Q _ _ _ _ _ R).
    - intros j Hj. cbn [u_data set_lhdr]. rewrite L3; [apply (wr_beyond _ _ _ _ _ R); exact Hj|lia|].
      intros K; apply (wr_free _ _ _ _ _ R) in K; lia.
    - rewrite F5. apply R.
  Qed.

  Lemma w_lower st a P Q : wrep cf st a P Q -> 1 <= a_top a -> a_map a (a_top a) = Some (0, 0) ->
    wrep cf (set_alloc st (a_top a - 1)) (mkA (a_top a - 1) (a_free a) (upd (a_map a) (a_top a) None)) P Q.
  Proof.
    intros R T1 EM. set (n := a_top a) in *.
    assert (DOM : 1 <= n <= a_top a /\ ~ In n (a_free a)) by (apply (wr_dom _ _ _ _ _ R); congruence).
    destruct DOM as [_ NI].
    assert (DU : forall j, j <> 0 -> u_data (set_alloc st (n - 1)) j = u_data st j) by (intros; apply upd_other; auto).
    pose proof (wr_iend _ _ _ _ _ R) as IE. pose proof (wr_len _ _ _ _ _ R) as LE. fold n in IE, LE.
    assert (NE : forall j, P j \/ Q j -> j <> n).
    { intros j K ->. destruct (w_node _ _ _ _ _ R K) as (p & K1 & K2). congruence. }
    destruct (w_half_move st (set_alloc st (n - 1)) a P Q R) as [SH TH]; auto.
    { intros j K. apply DU. destruct K as [K|K]; [apply (w_Prange _ _ _ _ _ R) in K|apply (w_Qrange _ _ _ _ _ R) in K]; lia. }
    constructor; cbn [a_top a_free a_map]; try exact SH; try exact TH.
    - unfold h_alloc, set_alloc. cbn [u_data set_data]. rewrite upd_same. reflexivity.
    - lia.
    - cbn [u_len set_alloc set_data]. lia.
    - unfold h_reserved, set_alloc. cbn [u_data set_data]. rewrite upd_same. apply R.
    - unfold h_reserved, set_alloc. cbn [u_data set_data u_len]. rewrite upd_same. apply R.
    - eapply lrep_ext; [|apply (wr_list _ _ _ _ _ R)]. intros y Hy. apply DU.
      apply (wr_free _ _ _ _ _ R) in Hy. lia.
    - intros j. rewrite upd_none_none, (wr_dom _ _ _ _ _ R). fold n. split.
      + intros [K1 [K2 K3]]. split; [lia|auto].
      + intros [K1 K2]. split; [lia|]. split; [lia|auto].
    - intros j K. pose proof (wr_free _ _ _ _ _ R _ K) as B. fold n in B. assert (j <> n) by congruence. lia.
    - intros j p. unfold upd. destruct (N.eqb_spec j n); [congruence|]. intros K.
      assert (K' : a_map a j <> None) by congruence. apply (w_range _ _ _ _ _ R) in K'.
      rewrite DU by lia. now apply (wr_data _ _ _ _ _ R).
    - intros j K. unfold psrc. cbn [a_map]. rewrite upd_other by auto. now apply (wr_P _ _ _ _ _ R).
    - intros j K. unfold ptgt. cbn [a_map]. rewrite upd_other by auto. now apply (wr_Q _ _ _ _ _ R).
    - intros j Hj. rewrite DU by lia. destruct (N.eq_dec j n) as [->|].
      + now apply (wr_data _ _ _ _ _ R).
      + apply (wr_beyond _ _ _ _ _ R). fold n. lia.
    - apply R.
  Qed.

  (** The trim loop stays away from the links that are gone when some link lies above each. *)
  Lemma w_trim : forall n fuel st a P Q, wrep cf st a P Q -> N.to_nat (a_top a) = n -> (n < fuel)%nat ->
    (forall l, gone a P l -> exists k, l < k /\ a_map a k <> None) ->
    exists st', u_trim lops fuel st = Val st' /\
      wrep cf st' (mkA (top_of (a_map a) n) (filter (fun x => x <? top_of (a_map a) n) (a_free a)) (a_map a)) P Q.
  Proof.
    induction n as [|n IH]; intros fuel st a P Q R TN F G; destruct fuel as [|fuel]; try lia; cbn [u_trim].
    - rewrite (w_header _ _ _ _ R). cbn [obind]. rewrite (wr_alloc _ _ _ _ _ R).
      assert (Z : a_top a = 0) by lia. rewrite Z. cbn [N.ltb N.compare obind negb].
      exists st. split; [reflexivity|]. cbn [top_of].
      eapply wrep_ext; [| | | | |exact R]; auto; try tauto. cbn [a_free].
      destruct (a_free a) as [|x l] eqn:EF; [reflexivity|]. exfalso.
      assert (K : In x (a_free a)) by (rewrite EF; now left). apply (wr_free _ _ _ _ _ R) in K. lia.
    - rewrite (w_header _ _ _ _ R). cbn [obind]. rewrite (wr_alloc _ _ _ _ _ R).
      assert (TE : a_top a = N.of_nat (S n)) by lia.
      destruct (N.ltb_spec 0 (a_top a)) as [_|]; [|lia].
      rewrite (w_unused _ _ _ _ _ R) by lia. cbn [obind top_of]. rewrite <- TE.
      destruct (a_map a (a_top a)) as [p|] eqn:EM.
      + destruct (shown st a (a_top a)) eqn:ES.
        2:{ exfalso. apply (shown_none _ _ _ _ _ R) in ES as [ES|ES]; [congruence|].
            destruct (G _ ES) as (k & K1 & K2). apply (w_range _ _ _ _ _ R) in K2. lia. }
        cbn [negb]. exists st. split; [reflexivity|].
        eapply wrep_ext; [| | | | |exact R]; auto; try tauto. cbn [a_free].
        assert (NI : ~ In (a_top a) (a_free a)) by (apply (wr_dom _ _ _ _ _ R); congruence).
        assert (AL : forall x, In x (a_free a) -> (x <? a_top a) = true).
        { intros x K. apply N.ltb_lt. pose proof (wr_free _ _ _ _ _ R _ K). assert (x <> a_top a) by congruence. lia. }
        clear -AL. induction (a_free a) as [|x l IH]; cbn [filter]; [reflexivity|].
        rewrite (AL x) by now left. rewrite IH; [reflexivity|]. intros; apply AL; now right.
      + unfold shown. rewrite EM. cbn [negb].
        assert (HI : In (a_top a) (a_free a)).
        { destruct (in_dec N.eq_dec (a_top a) (a_free a)); auto. exfalso.
          assert (K : a_map a (a_top a) <> None) by (apply (wr_dom _ _ _ _ _ R); split; [lia|auto]). congruence. }
        destruct (w_unused_detach _ _ _ _ _ R HI) as (st1 & E1 & R1).
        rewrite E1. cbn [obind]. rewrite csub_ok by lia. cbn [obind].
        apply w_lower in R1; cbn [a_top a_map] in *; [|lia|apply upd_same].
        assert (MM : forall j, upd (upd (a_map a) (a_top a) (Some (0, 0))) (a_top a) None j = a_map a j).
        { intros j. unfold upd. destruct (N.eqb_spec j (a_top a)) as [->|]; auto. }
        specialize (IH fuel _ _ _ _ R1). cbn [a_top a_free a_map] in IH.
        destruct IH as (st2 & E2 & R2); [lia|lia| |].
        { intros l [(x & y & K1 & K2) K3]. cbn [a_map] in K1. rewrite MM in K1.
          destruct (G l) as (k & K4 & K5); [split; auto; exists x, y; auto|]. exists k. rewrite MM. auto. }
        exists st2. split; [exact E2|].
        assert (ET : top_of (upd (upd (a_map a) (a_top a) (Some (0, 0))) (a_top a) None) n = top_of (a_map a) n).
        { apply top_of_ext. auto. }
        rewrite ET in R2. pose proof (top_of_le (a_map a) n).
        eapply wrep_ext; [| | | | |exact R2]; cbn [a_top a_free a_map]; auto; try tauto.
        symmetry. apply filter_lremove. apply N.ltb_ge. lia.
  Qed.

  (** ** The operations *)
  Definition winv (st : ust) (a : astate) (P Q : N -> Prop) : Prop := wrep cf st a P Q /\ aset a.

  Lemma w_update_none st a P Q i s t : winv st a P Q -> a_map a i = None \/ gone a P i ->
    fails_with (fun H h x => u_update cf tops h [i] [i; s; t] st x) st (NotExists i).
  Proof.
    intros [R W] G H h x. unfold u_update. change (qget [i] 0) with (Val i). change (qget [i; s; t] 1) with (Val s). change (qget [i; s; t] 2) with (Val t).
    cbn [obind]. rewrite (w_get _ _ _ _ _ R). cbn [obind]. apply (shown_none _ _ _ _ _ R) in G. rewrite G. reflexivity.
  Qed.
  Lemma w_delete_none st a P Q i : winv st a P Q -> a_map a i = None \/ gone a P i ->
    fails_with (fun H h x => u_delete cf tops lops h [i] st x) st (NotExists i).
  Proof.
    intros [R W] G H h x. unfold u_delete. change (qget [i] 0) with (Val i).
    cbn [obind]. rewrite (w_get _ _ _ _ _ R). cbn [obind]. apply (shown_none _ _ _ _ _ R) in G. rewrite G. reflexivity.
  Qed.
  Lemma w_update st a P Q i os ot s t : winv st a P Q -> a_map a i = Some (os, ot) -> sound a P Q i -> lone a P Q i ->
    exists st', winv st' (a_update a i s t) (put P i (s <> 0)) (put Q i (t <> 0)) /\
      calls_once (fun H h x => u_update cf tops h [i] [i; s; t] st x) st' (mkLink i s t) (mkLink i s t).
  Proof.
    intros [R W] M S L. destruct (w_relink _ _ _ _ _ _ _ s t R M S L) as (st' & E & R').
    exists st'. split; [split; [exact R'|apply aset_update; auto; congruence]|].
    intros H h x. unfold u_update. change (qget [i] 0) with (Val i). change (qget [i; s; t] 1) with (Val s). change (qget [i; s; t] 2) with (Val t).
    cbn [obind]. rewrite (w_get _ _ _ _ _ R). cbn [obind].
    assert (SH : shown st a i = Some (os, ot)) by (apply (shown_some _ _ _ _ _ _ _ R); split; [exact M|apply S]).
    rewrite SH. cbn [olink l_source l_target]. rewrite E. cbn [obind]. destruct (h x (mkLink i s t) (mkLink i s t)) as [x' f]. reflexivity.
  Qed.
  Lemma w_delete st a P Q i os ot : winv st a P Q -> a_map a i = Some (os, ot) -> sound a P Q i -> lone a P Q i ->
    (forall l, gone a P l -> l < i -> exists k, l < k /\ k <> i /\ a_map a k <> None) ->
    exists st', winv st' (a_delete a i) (put P i False) (put Q i False) /\
      calls_once (fun H h x => u_delete cf tops lops h [i] st x) st' (mkLink i os ot) nothing.
  Proof.
    intros K EM S L G. pose proof K as [R W].
    destruct (w_update st a P Q i os ot 0 0 K EM S L) as (st1 & [R1 W1] & E1).
    specialize (E1 unit (fun u _ _ => (u, Continue)) tt). cbn beta iota in E1. cbn [fst snd] in E1.
    assert (R1' : wrep cf st1 (a_update a i 0 0) (put P i False) (put Q i False)).
    { eapply wrep_ext; [| | | | |exact R1]; auto; intros j; unfold put; tauto. }
    clear R1. rename R1' into R1.
    pose proof (aset_some _ _ _ W EM) as [IR NF].
    assert (MD : forall j, upd (upd (a_map a) i (Some (0, 0))) i None j = upd (a_map a) i None j).
    { intros j. unfold upd. destruct (j =? i); reflexivity. }
    assert (SH : shown st a i = Some (os, ot)) by (apply (shown_some _ _ _ _ _ _ _ R); split; [exact EM|apply S]).
    assert (RED : forall st3,
      match i ?= a_top a with
      | Lt => u_unused_attach lops st1 i
      | Eq => let* a1 := csub (h_alloc st1) 1 in u_trim lops (u_fuel st1) (set_alloc st1 a1)
      | Gt => Panic
      end = Val st3 ->
      calls_once (fun H h x => u_delete cf tops lops h [i] st x) st3 (mkLink i os ot) nothing).
    { intros st3 E3 H h x. unfold u_delete. change (qget [i] 0) with (Val i). cbn [obind].
      rewrite (w_get _ _ _ _ _ R). cbn [obind]. rewrite SH. cbn [olink]. rewrite E1.
      cbn [obind]. rewrite (w_header _ _ _ _ R1). cbn [obind].
      rewrite (wr_alloc _ _ _ _ _ R1) in *. cbn [a_top a_update] in *. rewrite E3. cbn [obind].
      destruct (h x (mkLink i os ot) nothing); reflexivity. }
    rewrite (wr_alloc _ _ _ _ _ R1) in RED. cbn [a_top a_update] in RED.
    assert (WD : aset (a_delete a i)) by (apply aset_delete; auto; congruence).
    destruct (N.compare_spec i (a_top a)) as [Ei|Li|Gi]; [| |lia].
    - assert (EA : a_top (a_update a i 0 0) = i) by (cbn; auto).
      rewrite csub_ok in RED by lia. cbn [obind] in RED.
      assert (R2 : wrep cf (set_alloc st1 (a_top a - 1))
                     (mkA (a_top a - 1) (a_free a) (upd (upd (a_map a) i (Some (0, 0))) i None)) (put P i False) (put Q i False)).
      { pose proof (w_lower _ _ _ _ R1) as R2. rewrite EA in R2. rewrite <- Ei. apply R2; [lia|].
        cbn [a_map a_update]. apply upd_same. }
      destruct (w_trim (N.to_nat (a_top a - 1)) (u_fuel st1) _ _ _ _ R2) as (st3 & E3 & R3).
      { reflexivity. }
      { unfold u_fuel. rewrite (wr_alloc _ _ _ _ _ R1). cbn [a_top a_update]. lia. }
      { intros l [(x & y & K1 & K2) K3]. cbn [a_map] in *. rewrite MD in K1.
        assert (LI : l <> i) by (intros ->; rewrite upd_same in K1; discriminate). rewrite upd_other in K1 by auto.
        destruct (G l) as (k & G1 & G2 & G3).
        - split; [exists x, y; auto|]. intros PL. apply K3. right. auto.
        - assert (KM : a_map a l <> None) by congruence. apply (w_range _ _ _ _ _ R) in KM. lia.
        - exists k. split; auto. rewrite MD, upd_other by auto. exact G3. }
      exists st3. split; [split; [|exact WD]|now apply RED].
      unfold a_delete. destruct (N.ltb_spec i (a_top a)); [lia|].
      cbn [a_top a_free a_map] in R3.
      assert (ET : top_of (upd (a_map a) i None) (N.to_nat (a_top a)) =
                   top_of (upd (upd (a_map a) i (Some (0, 0))) i None) (N.to_nat (a_top a - 1))).
      { replace (N.to_nat (a_top a)) with (Datatypes.S (N.to_nat (a_top a - 1))) by lia. cbn [top_of].
        replace (N.of_nat (Datatypes.S (N.to_nat (a_top a - 1)))) with i by lia. rewrite upd_same.
        apply top_of_ext. intros j _. symmetry. apply MD. }
      cbv zeta. rewrite ET. eapply wrep_ext; [| | | | |exact R3]; cbn [a_top a_free a_map]; auto; tauto.
    - destruct (w_unused_attach _ _ _ _ i R1) as (st3 & E3 & R3).
      { cbn [a_map a_update]. apply upd_same. }
      exists st3. split; [split; [|exact WD]|now apply RED].
      unfold a_delete. destruct (N.ltb_spec i (a_top a)); [|lia].
      eapply wrep_ext; [| | | | |exact R3]; cbn [a_top a_free a_map a_update]; auto; tauto.
  Qed.

  Lemma w_cells st st' a P Q : wrep cf st a P Q -> (forall j, j <> 0 -> u_data st' j = u_data st j) -> h_alloc st' = h_alloc st ->
    u_src st' = u_src st -> u_tgt st' = u_tgt st -> a_top a < u_len st' -> 1 <= h_reserved st' ->
    h_reserved st' <= u_len st' <= h_reserved st' + 1 -> wrep cf st' a P Q.
  Proof.
    intros R D A S T LE R1 R2.
    destruct (w_half_move st st' a P Q R) as [SH TH]; try (intros; congruence); [|unfold h_sroot; now rewrite S|unfold h_troot; now rewrite T|].
    { intros j K. apply D. destruct K as [K|K]; [apply (w_Prange _ _ _ _ _ R) in K|apply (w_Qrange _ _ _ _ _ R) in K]; lia. }
    constructor; auto; try apply R.
    - rewrite A. apply R.
    - unfold u_lhdr, h_first, h_last, h_free. rewrite S, T. eapply lrep_ext; [|apply (wr_list _ _ _ _ _ R)].
      intros y Hy. apply D. apply (wr_free _ _ _ _ _ R) in Hy. lia.
    - intros j p K. assert (K2 : a_map a j <> None) by congruence. apply (w_range _ _ _ _ _ R) in K2.
      rewrite D by lia. now apply (wr_data _ _ _ _ _ R).
    - intros j Hj. rewrite D by lia. now apply (wr_beyond _ _ _ _ _ R).
    - rewrite T. apply R.
  Qed.

  Lemma w_create st a P Q q : winv st a P Q ->
    (~ a_full cf a /\ a_free a = [] /\ ~ room cf a /\ u_orc st 0%nat (u_len st + c_step cf) = true /\
       forall H (h : whandler H) x, u_create cf lops h q st x = Panic) \/
    (a_full cf a /\ fails_with (fun H h x => u_create cf lops h q st x) st (LimitReached (c_iend cf))) \/
    (~ a_full cf a /\ a_free a = [] /\ u_orc st 0%nat (u_len st + c_step cf) = false /\ winv (u_alloc_failed st) a P Q /\
       fails_with (fun H h x => u_create cf lops h q st x) (u_alloc_failed st) AllocFailed) \/
    (~ a_full cf a /\ exists st', winv st' (a_create a) P Q /\
       calls_once (fun H h x => u_create cf lops h q st x) st' nothing (mkLink (a_next a) 0 0)).
  Proof.
    intros [R W]. unfold fails_with, calls_once, u_create. rewrite (w_header _ _ _ _ R). cbn [obind].
    destruct (wr_list _ _ _ _ _ R) as (_ & _ & LF & _). cbn [lfirst u_lhdr] in LF. rewrite LF, (ok_null _ CF).
    destruct (a_free a) as [|y fl] eqn:EF; cbn [hd].
    - rewrite N.eqb_refl. rewrite (wr_alloc _ _ _ _ _ R).
      destruct (N.leb_spec (c_iend cf) (a_top a)) as [G|G]; [right; left; split; [split; auto|reflexivity]|].
      assert (NF : ~ a_full cf a) by (intros [_ K]; lia).
      pose proof (ok_iend _ CF) as IE. pose proof (ok_any _ CF) as AN.
      assert (CREATE : forall st1, wrep cf st1 a P Q -> a_top a + 1 < u_len st1 ->
         exists st', winv st' (a_create a) P Q /\ forall H (h : whandler H) x,
         (let* a0 := cadd (c_tmax cf) (h_alloc st1) 1 in
          let st2 := set_alloc st1 a0 in
          let (s', f) := h x nothing (mkLink a0 0 0) in Val (st2, s', Ok f)) =
           Val (st', fst (h x nothing (mkLink (a_next a) 0 0)), Ok (snd (h x nothing (mkLink (a_next a) 0 0))))).
      { intros st1 R1 L1. exists (set_alloc st1 (a_top a + 1)). split.
        2:{ intros H h x. rewrite (wr_alloc _ _ _ _ _ R1). rewrite cadd_ok by lia. cbn [obind].
            unfold a_next. rewrite EF. destruct (h x nothing (mkLink (a_top a + 1) 0 0)). reflexivity. }
        split; [|now apply aset_create].
        assert (NM : a_map a (a_top a + 1) = None) by (apply aset_none; auto; left; lia).
        assert (DU : forall j, j <> 0 -> u_data (set_alloc st1 (a_top a + 1)) j = u_data st1 j) by (intros; apply upd_other; auto).
        assert (MM : forall j, a_map (a_create a) j = upd (a_map a) (a_top a + 1) (Some (0, 0)) j) by (intros j; unfold a_create; now rewrite EF).
        assert (TA : a_top (a_create a) = a_top a + 1) by (unfold a_create; now rewrite EF).
        assert (FA : a_free (a_create a) = []) by (unfold a_create; now rewrite EF).
        destruct (w_half_move st1 (set_alloc st1 (a_top a + 1)) a P Q R1) as [SH TH]; auto.
        { intros j K. apply DU. destruct K as [K|K]; [apply (w_Prange _ _ _ _ _ R) in K|apply (w_Qrange _ _ _ _ _ R) in K]; lia. }
        constructor; try exact SH; try exact TH.
        - unfold h_alloc, set_alloc. cbn [u_data set_data]. rewrite upd_same. symmetry; exact TA.
        - lia.
        - rewrite TA. exact L1.
        - unfold h_reserved, set_alloc. cbn [u_data set_data]. rewrite upd_same. apply R1.
        - unfold h_reserved, set_alloc. cbn [u_data set_data u_len]. rewrite upd_same. apply R1.
        - rewrite FA. pose proof (wr_list _ _ _ _ _ R1) as LR. rewrite EF in LR.
          eapply lrep_ext; [|exact LR]. intros j [].
        - apply (as_dom _ (aset_create _ W)).
        - apply (as_free _ (aset_create _ W)).
        - intros j p. rewrite MM. unfold upd. destruct (N.eqb_spec j (a_top a + 1)) as [->|NE]; intros K.
          + injection K as <-. rewrite DU by lia. apply (wr_beyond _ _ _ _ _ R1). lia.
          + assert (K2 : a_map a j <> None) by congruence. apply (w_range _ _ _ _ _ R1) in K2.
            rewrite DU by lia. now apply (wr_data _ _ _ _ _ R1).
        - intros j K. unfold psrc. rewrite MM, upd_other; [now apply (wr_P _ _ _ _ _ R)|]. apply (w_Prange _ _ _ _ _ R) in K. lia.
        - intros j K. unfold ptgt. rewrite MM, upd_other; [now apply (wr_Q _ _ _ _ _ R)|]. apply (w_Qrange _ _ _ _ _ R) in K. lia.
        - intros j Hj. rewrite DU by lia. apply (wr_beyond _ _ _ _ _ R1). lia.
        - apply R1. }
      unfold u_grow. pose proof (wr_res1 _ _ _ _ _ R). pose proof (wr_res2 _ _ _ _ _ R). pose proof (wr_len _ _ _ _ _ R).
      rewrite csub_ok by lia. cbn [obind]. rewrite (wr_alloc _ _ _ _ _ R).
      destruct (N.leb_spec (h_reserved st - 1) (a_top a)) as [GR|GR].
      + unfold u_alloc_mem. destruct (u_orc st 0%nat (u_len st + c_step cf)) eqn:EO.
        * unfold u_header. cbn [u_len]. pose proof (ok_step _ CF).
          destruct (N.ltb_spec 0 (u_len st + c_step cf)); [|lia]. cbn [obind].
          unfold ctry. destruct (N.leb_spec (u_len st + c_step cf) (c_tmax cf)) as [LT|LT].
          2:{ left. split; auto. split; auto. unfold room. repeat split; auto; lia. }
          cbn [obind]. right; right; right. split; [exact NF|].
          set (st1 := mkU (u_len st + c_step cf) (fun k => u_orc st (S k)) (u_data st) (u_src st) (u_tgt st)).
          apply CREATE; [|cbn [u_len set_reserved set_data st1]; lia].
          eapply w_cells; [exact R|..]; cbn [u_len u_src u_tgt set_reserved set_data st1]; auto.
          -- intros j J. cbn [u_data set_data set_reserved st1]. now apply upd_other.
          -- lia.
          -- unfold h_reserved, set_reserved. cbn [u_data set_data]. rewrite upd_same. cbn [snd]. lia.
          -- unfold h_reserved, set_reserved. cbn [u_data set_data]. rewrite upd_same. cbn [snd]. lia.
        * right; right; left. split; auto. split; auto. split; auto. split; [|reflexivity].
          split; auto. eapply w_cells; [exact R|..]; auto.
      + right; right; right. split; [exact NF|]. cbn [obind]. apply CREATE; auto. lia.
    - destruct (N.eqb_spec y 0) as [->|Y0].
      { exfalso. assert (K : In 0 (a_free a)) by (rewrite EF; now left). apply (wr_free _ _ _ _ _ R) in K. lia. }
      right; right; right. split; [intros [K _]; congruence|].
      destruct (w_unused_detach _ _ _ _ y R) as (st1 & E1 & R1); [rewrite EF; now left|].
      rewrite E1. cbn [obind]. unfold a_next; rewrite ?EF.
      exists st1. split; [|intros H h x; destruct (h x nothing (mkLink y 0 0)); reflexivity].
      split; [|now apply aset_create].
      pose proof (as_nodup _ W) as ND. rewrite EF in ND. inversion ND; subst.
      eapply wrep_ext; [| | | | |exact R1]; unfold a_create; rewrite ?EF; cbn [a_top a_free a_map]; auto; try tauto.
      symmetry. now apply lremove_head.
  Qed.

  Lemma w_reopen_cells st1 st a P Q orc st' : same_cells st1 st -> winv st a P Q -> a_top a < c_step cf ->
    u_open cf (u_persist st1 orc) = Val (Ok st') -> winv st' a P Q.
  Proof.
    intros (S1 & S2 & S3 & S4) [R W] TS E. split; auto.
    assert (HA : h_alloc (u_persist st1 orc) = a_top a) by (change (h_alloc st1 = a_top a); rewrite S2; exact (wr_alloc _ _ _ _ _ R)).
    destruct (u_open_cond cf tops lops ENV _ _ E) as (T & O1 & O2); [lia|].
    unfold u_open, u_alloc_mem in E. rewrite O1 in E. pose proof (ok_page _ CF). pose proof (ok_step _ CF).
    unfold u_header at 1 in E. cbn [u_len] in E. destruct (N.ltb_spec 0 (c_page cf)); [|lia]. cbn [obind u_orc] in E.
    change (h_alloc (mkU (c_page cf) _ (u_data (u_persist st1 orc)) (u_src (u_persist st1 orc)) (u_tgt (u_persist st1 orc)))) with (h_alloc st1) in E.
    rewrite S2, (wr_alloc _ _ _ _ _ R) in E. rewrite N.max_l in E by lia. rewrite O2 in E.
    unfold u_header in E. cbn [u_len] in E. destruct (N.ltb_spec 0 (c_step cf)); [|lia]. cbn [obind] in E.
    rewrite csub_ok in E by lia. cbn [obind] in E. rewrite ctry_ok in E by lia. cbn [obind] in E. injection E as <-.
    eapply w_cells; [exact R|..]; cbn [u_len u_src u_tgt set_reserved set_data u_persist]; auto.
    - intros j J. cbn [u_data set_data set_reserved u_persist]. rewrite upd_other by auto. now apply S1.
    - unfold h_reserved, set_reserved. cbn [u_data set_data]. rewrite upd_same. cbn [snd]. lia.
    - unfold h_reserved, set_reserved. cbn [u_data set_data]. rewrite upd_same. cbn [snd]. lia.
  Qed.

  Lemma w_reopen st a P Q orc st' : winv st a P Q -> a_top a < c_step cf ->
    u_open cf (u_persist st orc) = Val (Ok st') -> winv st' a P Q.
  Proof. apply w_reopen_cells. apply same_cells_refl. Qed.

  (** ** Points of a deletion *)
  Lemma w_free_top st a P Q : wrep cf st a P Q -> (forall l, gone a P l -> exists k, l < k /\ a_map a k <> None) ->
    0 < h_alloc st -> u_is_unused st (h_alloc st) = Val true ->
    1 <= a_top a /\ h_alloc st = a_top a /\ a_map a (a_top a) = None /\ In (a_top a) (a_free a).
  Proof.
    intros R G HP E. pose proof (wr_alloc _ _ _ _ _ R) as HA. rewrite HA in HP, E. rewrite (w_unused _ _ _ _ _ R) in E by lia.
    destruct (shown st a (a_top a)) eqn:ES; [discriminate|].
    assert (M : a_map a (a_top a) = None).
    { apply (shown_none _ _ _ _ _ R) in ES as [ES|ES]; auto. destruct (G _ ES) as (k & K1 & K2).
      apply (w_range _ _ _ _ _ R) in K2. lia. }
    split; [lia|]. split; [exact HA|]. split; [exact M|].
    destruct (in_dec N.eq_dec (a_top a) (a_free a)) as [|NI]; auto. exfalso.
    assert (K : a_map a (a_top a) <> None) by (apply (wr_dom _ _ _ _ _ R); split; [lia|auto]). congruence.
  Qed.
  Lemma w_trimmed : forall n st a P Q st', wrep cf st a P Q -> (forall l, gone a P l -> exists k, l < k /\ a_map a k <> None) ->
    trimmed lops n st st' ->
    exists a', wrep cf st' a' P Q /\ (forall j, a_map a' j = a_map a j) /\ a_top a' <= a_top a.
  Proof.
    induction n as [|n IH]; intros st a P Q st' R G T; [cbn in T; subst; exists a; split; [exact R|split; [auto|lia]]|].
    destruct T as (HP & EU & st1 & ED & T). destruct (w_free_top _ _ _ _ R G HP EU) as (T1 & HA & M & FI).
    destruct (w_unused_detach _ _ _ _ _ R FI) as (st1' & ED' & R1).
    rewrite HA in ED, T. rewrite ED in ED'. injection ED' as <-.
    pose proof (w_lower _ _ _ _ R1) as R2. cbn [a_top a_free a_map] in R2.
    specialize (R2 T1 (upd_same _ _ _ _)).
    assert (MM : forall j, upd (upd (a_map a) (a_top a) (Some (0, 0))) (a_top a) None j = a_map a j).
    { intros j. unfold upd. destruct (N.eqb_spec j (a_top a)) as [->|]; auto. }
    destruct (IH _ _ _ _ st' R2) as (a' & R3 & EM & LE); [|exact T|].
    { intros l [(x & y & K1 & K2) K3]. cbn [a_map] in K1. rewrite MM in K1.
      destruct (G l) as (k & K4 & K5); [split; auto; exists x, y; auto|]. exists k. cbn [a_map]. rewrite MM. auto. }
    cbn [a_top a_map] in EM, LE.
    exists a'. split; [exact R3|]. split; [|lia]. intros j. rewrite EM. apply MM.
  Qed.
  (** What the memory holds at each of these points. *)
  Lemma w_delete_at st a P Q i os ot p st1 : winv st a P Q -> a_map a i = Some (os, ot) -> sound a P Q i -> lone a P Q i ->
    (forall l, gone a P l -> l < i -> exists k, l < k /\ k <> i /\ a_map a k <> None) ->
    delete_at tops lops st i os ot p st1 -> exists a1, winv st1 a1 (put P i False) (put Q i False) /\ a_top a1 <= a_top a /\
    match p with
    | Zeroed => a_map a1 i = Some (0, 0) /\ forall j, j <> i -> a_map a1 j = a_map a j
    | Listed | Trimming _ => a_map a1 i = None /\ forall j, j <> i -> a_map a1 j = a_map a j
    | Detaching _ => exists k, 1 <= k < i /\ a_map a k = None /\ a_map a1 k = Some (0, 0) /\ a_map a1 i = None /\
        forall j, j <> i -> j <> k -> a_map a1 j = a_map a j
    end.
  Proof.
    intros [R W] M S LO G (st0 & E0 & PT).
    destruct (w_relink _ _ _ _ _ _ _ 0 0 R M S LO) as (st0' & E0' & R0').
    rewrite E0 in E0'. injection E0' as <-.
    assert (R0 : wrep cf st0 (a_update a i 0 0) (put P i False) (put Q i False)).
    { eapply wrep_ext; [| | | | |exact R0']; auto; intros j; unfold put; tauto. }
    clear R0'. pose proof (aset_some _ _ _ W M) as RI.
    assert (MI : a_map (a_update a i 0 0) i = Some (0, 0)) by (cbn [a_map a_update]; apply upd_same).
    assert (MJ : forall j, j <> i -> a_map (a_update a i 0 0) j = a_map a j) by (intros; cbn [a_map a_update]; now apply upd_other).
    assert (HA : h_alloc st0 = a_top a) by (rewrite (wr_alloc _ _ _ _ _ R0); reflexivity).
    set (al := mkA (a_top a - 1) (a_free a) (upd (a_map (a_update a i 0 0)) i None)).
    assert (LOW : i = h_alloc st0 -> wrep cf (set_alloc st0 (h_alloc st0 - 1)) al (put P i False) (put Q i False)).
    { intros EI. unfold al. rewrite HA in *. pose proof (w_lower st0 _ _ _ R0) as R2. cbn [a_top a_update] in R2. cbn [a_free a_update] in R2.
      rewrite <- EI in *. apply R2; [lia|exact MI]. }
    assert (MA : forall j, j <> i -> a_map al j = a_map a j) by (intros j J; unfold al; cbn [a_map]; rewrite upd_other by auto; auto).
    assert (MAI : a_map al i = None) by (apply upd_same).
    assert (GA : i = h_alloc st0 -> forall l, gone al (put P i False) l -> exists k, l < k /\ a_map al k <> None).
    { intros EI l [(x & y & K1 & K2) K3]. assert (LI : l <> i) by (intros ->; congruence). rewrite MA in K1 by auto.
      destruct (G l) as (k & G1 & G2 & G3).
      - split; [exists x, y; auto|]. intros PL. apply K3. right. auto.
      - assert (KM : a_map a l <> None) by congruence. apply (w_range _ _ _ _ _ R) in KM. lia.
      - exists k. split; auto. rewrite MA by auto. exact G3. }
    destruct p as [| |n|n].
    - subst st1. exists (a_update a i 0 0). split; [split; [exact R0|exact (wrep_aset _ _ _ _ _ R0)]|]. split; [cbn [a_top a_update]; lia|auto].
    - destruct PT as [LT EA]. destruct (w_unused_attach st0 _ _ _ i R0 MI) as (st1' & E1 & R1).
      rewrite EA in E1. injection E1 as <-. eexists. split; [split; [exact R1|exact (wrep_aset _ _ _ _ _ R1)]|]. cbn [a_top a_map a_update].
      split; [lia|]. split; [apply upd_same|]. intros j J. rewrite upd_other by auto. now apply MJ.
    - destruct PT as [EI T]. destruct (w_trimmed _ _ _ _ _ _ (LOW EI) (GA EI) T) as (a1 & R1 & EM & LE).
      exists a1. split; [split; [exact R1|exact (wrep_aset _ _ _ _ _ R1)]|]. split; [unfold al in LE; cbn [a_top] in LE; lia|].
      split; [rewrite EM; exact MAI|]. intros j J. rewrite EM. auto.
    - destruct PT as (EI & st2 & T & P2 & EU & ED). destruct (w_trimmed _ _ _ _ _ _ (LOW EI) (GA EI) T) as (a1 & R1 & EM & LE).
      assert (TA : a_top al = a_top a - 1) by reflexivity.
      destruct (w_free_top _ _ _ _ R1) as (T1 & HA2 & M2 & FI); [|exact P2|exact EU|].
      { intros l [(x & y & K1 & K2) K3]. rewrite EM in K1. destruct (GA EI l) as (k & K4 & K5); [split; auto; exists x, y; auto|].
        exists k. rewrite EM. auto. }
      destruct (w_unused_detach st2 a1 _ _ (a_top a1) R1 FI) as (st1' & ED' & R3).
      rewrite HA2, ED' in ED. injection ED as <-. eexists. split; [split; [exact R3|exact (wrep_aset _ _ _ _ _ R3)]|]. cbn [a_top a_map].
      split; [lia|]. exists (a_top a1). assert (KI : a_top a1 < i) by lia.
      split; [lia|]. split; [|split; [apply upd_same|split]].
      + rewrite EM, MA in M2 by lia. exact M2.
      + rewrite upd_other by lia. rewrite EM. exact MAI.
      + intros j J1 J2. rewrite upd_other, EM by auto. auto.
  Qed.

  (** ** Queries *)
  Lemma w_src_visits st a P Q s : winv st a P Q -> s <> 0 ->
    exists L, NoDup L /\ (forall l, In l L <-> a_map a (l_index l) = Some (l_source l, l_target l) /\ P (l_index l) /\ l_source l = s) /\
      (forall H (h : rhandler H) x, u_src_each st s h x = Val (run_handler h L x)) /\
      u_src_count cf st s = Val (N.of_nat (length L)).
  Proof.
    intros [R W] S0. pose proof (wr_len _ _ _ _ _ R) as HL.
    destruct (inv_each (c_tmax cf) (u_len st) (a_top a) (key_src (u_data st)) (u_src st) (h_sroot st)
      P (fun i => w_Prange st a P Q i R) HL (u_fuel st)) as (V & V1 & V2 & V3 & V4).
    { unfold u_fuel. rewrite (wr_alloc _ _ _ _ _ R). lia. }
    { apply (wr_src _ _ _ _ _ R). }
    exists (map (link_of (u_data st)) (V s)). split; [now apply map_link_nodup|]. split; [|split].
    - intros l. rewrite in_map_iff. split.
      + intros (i & <- & K). apply V2 in K as [K1 K2]. pose proof (wr_P _ _ _ _ _ R _ K1) as (x & y & M & _).
        unfold link_of, key_src in *. rewrite (wr_data _ _ _ _ _ R _ _ M) in *. cbn in *. auto.
      + intros (M & K1 & K2). exists (l_index l). unfold link_of. rewrite (wr_data _ _ _ _ _ R _ _ M). split; [now destruct l|].
        apply V2. split; auto. unfold key_src. now rewrite (wr_data _ _ _ _ _ R _ _ M).
    - intros H h x. unfold u_src_each. rewrite (w_header _ _ _ _ R). apply V3.
    - unfold u_src_count. rewrite (w_header _ _ _ _ R), map_length. apply V4.
      + intros E. exact E.
      + pose proof (wr_iend _ _ _ _ _ R). pose proof (ok_iend _ (e_cf _ _ _ ENV)). pose proof (ok_any _ (e_cf _ _ _ ENV)). lia.
  Qed.
  Lemma w_tgt_visits st a P Q t : winv st a P Q -> t <> 0 ->
    exists L, NoDup L /\ (forall l, In l L <-> a_map a (l_index l) = Some (l_source l, l_target l) /\ Q (l_index l) /\ l_target l = t) /\
      (forall H (h : rhandler H) x, u_tgt_each st t h x = Val (run_handler h L x)) /\
      u_tgt_count cf st t = Val (N.of_nat (length L)).
  Proof.
    intros [R W] S0. pose proof (wr_len _ _ _ _ _ R) as HL.
    destruct (inv_each (c_tmax cf) (u_len st) (a_top a) (key_tgt (u_data st)) (u_tgt st) (h_troot st)
      Q (fun i => w_Qrange st a P Q i R) HL (u_fuel st)) as (V & V1 & V2 & V3 & V4).
    { unfold u_fuel. rewrite (wr_alloc _ _ _ _ _ R). lia. }
    { apply (wr_tgt _ _ _ _ _ R). }
    exists (map (link_of (u_data st)) (V t)). split; [now apply map_link_nodup|]. split; [|split].
    - intros l. rewrite in_map_iff. split.
      + intros (i & <- & K). apply V2 in K as [K1 K2]. pose proof (wr_Q _ _ _ _ _ R _ K1) as (x & y & M & _).
        unfold link_of, key_tgt in *. rewrite (wr_data _ _ _ _ _ R _ _ M) in *. cbn in *. auto.
      + intros (M & K1 & K2). exists (l_index l). unfold link_of. rewrite (wr_data _ _ _ _ _ R _ _ M). split; [now destruct l|].
        apply V2. split; auto. unfold key_tgt. now rewrite (wr_data _ _ _ _ _ R _ _ M).
    - intros H h x. unfold u_tgt_each. rewrite (w_header _ _ _ _ R). apply V3.
    - unfold u_tgt_count. rewrite (w_header _ _ _ _ R), map_length. apply V4.
      + intros _. apply (wr_res8 _ _ _ _ _ R).
      + pose proof (wr_iend _ _ _ _ _ R). pose proof (ok_iend _ (e_cf _ _ _ ENV)). pose proof (ok_any _ (e_cf _ _ _ ENV)). lia.
  Qed.
  Lemma w_search st a P Q s t : winv st a P Q ->
    exists r, u_src_search st s t = Val r /\
      ((r = 0 /\ forall i, P i -> a_map a i <> Some (s, t)) \/ (a_map a r = Some (s, t) /\ P r)).
  Proof.
    intros [R W]. pose proof (wr_len _ _ _ _ _ R) as HL.
    destruct (inv_search (u_len st) (a_top a) (key_src (u_data st)) (u_src st) (h_sroot st)
      P (fun i => w_Prange st a P Q i R) HL (u_fuel st)) with (q := (s, t)) as (r & E & K).
    { unfold u_fuel. rewrite (wr_alloc _ _ _ _ _ R). lia. }
    { apply (wr_src _ _ _ _ _ R). }
    exists r. split; [unfold u_src_search; rewrite (w_header _ _ _ _ R); exact E|].
    destruct K as [[-> K]|[K1 K2]].
    - left. split; auto. intros i Pi M. apply (K i Pi). unfold key_src. now rewrite (wr_data _ _ _ _ _ R _ _ M).
    - right. split; auto. pose proof (wr_P _ _ _ _ _ R _ K1) as (x & y & M & _). unfold key_src in K2.
      rewrite (wr_data _ _ _ _ _ R _ _ M) in K2. cbn in K2. congruence.
  Qed.
  Lemma w_total st a P Q : winv st a P Q -> u_count cf st [] = Val (N.of_nat (length (alinks a))).
  Proof.
    intros [R W]. unfold u_count, u_get_total. rewrite (w_header _ _ _ _ R). cbn [obind]. rewrite (wr_alloc _ _ _ _ _ R).
    destruct (wr_list _ _ _ _ _ R) as (_ & _ & _ & _ & LC & _). cbn [lcount u_lhdr] in LC. rewrite LC.
    pose proof (alinks_count_set _ W). rewrite csub_ok by lia. f_equal. lia.
  Qed.
  Lemma w_all st a P Q H (h : rhandler H) x : winv st a P Q ->
    u_each cf h [] st x = Val (run_handler h (alinks (mkA (a_top a) (a_free a) (shown st a))) x).
  Proof.
    intros [R W]. unfold u_each, u_each_all. rewrite (w_header _ _ _ _ R). cbn [obind]. rewrite (wr_alloc _ _ _ _ _ R).
    unfold alinks. cbn [a_top a_map]. generalize (range1 (a_top a)). intros l. revert x. induction l as [|j l IH]; intros x; [reflexivity|].
    cbn [u_each_idx flat_map]. rewrite (w_get _ _ _ _ j R). cbn [obind].
    destruct (shown st a j) as [[y z]|]; cbn [olink app run_handler]; [|apply IH].
    destruct (h x (mkLink j y z)) as [x' []]; [apply IH|reflexivity].
  Qed.
End W.
