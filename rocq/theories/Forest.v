(** The trees of one side (sources or targets) of the two-memory store: one internal tree
    for every link referred to and one external tree, all stored in the same columns.  The
    invariant says in which tree every node is. *)
From Coq Require Import NArith List Bool Lia Permutation Sorted.
From Verif Require Import Base Trees TreeInv SplitModel.
Import ListNotations.
Open Scope N_scope.

(** Not in a tree, in the external tree, in the internal tree of [v]. *)
Inductive place := Out | Ext | Int (v : N).

Record forest (ke ki : N -> key) (c : N -> nd) (root : N -> N) (ext : N) (pl : N -> place) : Prop := {
  fo_ext : tree_inv ke c ext (fun x => pl x = Ext);
  fo_int : forall v, v <> 0 -> tree_inv ki c (root v) (fun x => pl x = Int v);
  fo_out : forall x, x <> 0 -> pl x = Out -> c x = nd0;
  fo_nz : forall x, pl x <> Int 0
}.

Lemma forest_ext ke ki c root ext pl ke' ki' c' root' pl' :
  (forall x, pl' x = pl x) -> (forall x, pl x <> Out -> ke' x = ke x /\ ki' x = ki x) ->
  (forall x, x <> 0 -> c' x = c x) -> (forall v, v <> 0 -> root' v = root v) ->
  forest ke ki c root ext pl -> forest ke' ki' c' root' ext pl'.
Proof.
  intros EP EK EC ER F.
  assert (NZ : forall x, pl x <> Out -> x <> 0).
  { intros x X. destruct (pl x) as [| |v] eqn:E; [congruence| |].
    - eapply (tree_inv_nonzero _ _ _ _ x (fo_ext _ _ _ _ _ _ F)). exact E.
    - assert (V : v <> 0) by (intros ->; now apply (fo_nz _ _ _ _ _ _ F) in E).
      eapply (tree_inv_nonzero _ _ _ _ x (fo_int _ _ _ _ _ _ F v V)). exact E. }
  constructor.
  - eapply tree_inv_ext; [| | |apply F].
    + intros i. cbn. now rewrite EP.
    + intros i K. cbn in K. apply EK. congruence.
    + intros i K. cbn in K. apply EC, NZ. congruence.
  - intros v V. rewrite ER by auto. eapply tree_inv_ext; [| | |apply (fo_int _ _ _ _ _ _ F v V)].
    + intros i. cbn. now rewrite EP.
    + intros i K. cbn in K. apply EK. congruence.
    + intros i K. cbn in K. apply EC, NZ. congruence.
  - intros x X K. rewrite EC by auto. apply F; auto. now rewrite <- EP.
  - intros x. rewrite EP. apply F.
Qed.

Lemma forest_nonzero ke ki c root ext pl x : forest ke ki c root ext pl -> pl x <> Out -> x <> 0.
Proof.
  intros F X. destruct (pl x) as [| |v] eqn:E; [congruence| |].
  - eapply (tree_inv_nonzero _ _ _ _ x (fo_ext _ _ _ _ _ _ F)). exact E.
  - assert (V : v <> 0) by (intros ->; now apply (fo_nz _ _ _ _ _ _ F) in E).
    eapply (tree_inv_nonzero _ _ _ _ x (fo_int _ _ _ _ _ _ F v V)). exact E.
Qed.

Lemma forest_size ke ki c root ext pl x : forest ke ki c root ext pl -> pl x <> Out -> nz (c x) <> 0.
Proof.
  intros F X. destruct (pl x) as [| |v] eqn:E; [congruence| |].
  - eapply (tree_inv_size _ _ _ _ x (fo_ext _ _ _ _ _ _ F)). exact E.
  - assert (V : v <> 0) by (intros ->; now apply (fo_nz _ _ _ _ _ _ F) in E).
    eapply (tree_inv_size _ _ _ _ x (fo_int _ _ _ _ _ _ F v V)). exact E.
Qed.

(** The tree of a link nobody refers to is empty. *)
Lemma forest_root0 ke ki c root ext pl v : forest ke ki c root ext pl -> v <> 0 ->
  (forall x, pl x <> Int v) -> root v = 0.
Proof.
  intros F V K. destruct (tree_inv_root_in _ _ _ _ (fo_int _ _ _ _ _ _ F v V)) as [E|E]; auto.
  cbn in E. now apply K in E.
Qed.

Ltac updcase := match goal with
  | |- context [upd _ ?x _ ?y] => unfold upd; destruct (N.eqb_spec y x)
  | H : context [upd _ ?x _ ?y] |- _ => unfold upd in H; destruct (N.eqb_spec y x)
  end.

Section Ops.
  Variable o : tree_ops.
  Hypothesis OK : tree_ops_ok o.
  Variable ke ki : N -> key.

  Lemma forest_detach_int c root ext pl x v :
    forest ke ki c root ext pl -> pl x = Int v ->
    (forall j, pl j = Int v -> ki j = ki x -> j = x) ->
    exists c' r', t_detach o ki c (root v) x = Val (c', r') /\
      forest ke ki c' (upd root v r') ext (upd pl x Out) /\ c' 0 = c 0.
  Proof.
    intros F X KD. assert (V : v <> 0) by (intros ->; now apply (fo_nz _ _ _ _ _ _ F) in X).
    destruct (inv_detach o OK ki c (root v) _ x (fo_int _ _ _ _ _ _ F v V) X KD) as (c' & r' & E & T & C0 & FR).
    exists c', r'. split; [exact E|]. split.
    - constructor.
      + eapply tree_inv_ext; [| | |apply F]; auto.
        * intros i. cbn. updcase; [subst; rewrite X; split; discriminate|tauto].
        * intros i K. cbn in K. apply FR. congruence.
      + intros w W. unfold upd at 1. destruct (N.eqb_spec w v) as [->|NE].
        * eapply tree_inv_ext; [| | |exact T]; auto.
          intros i. cbn. updcase; [subst; split; [tauto|discriminate]|tauto].
        * eapply tree_inv_ext; [| | |apply (fo_int _ _ _ _ _ _ F w W)]; auto.
          -- intros i. cbn. updcase; [subst; rewrite X; split; congruence|tauto].
          -- intros i K. cbn in K. apply FR. congruence.
      + intros y Y K. updcase; [now subst|]. rewrite FR by congruence. now apply F.
      + intros y. updcase; [discriminate|apply F].
    - apply FR. intros K. eapply (tree_inv_nonzero _ _ _ _ 0 (fo_int _ _ _ _ _ _ F v V)); eauto.
  Qed.

  Lemma forest_attach_int c root ext pl x v :
    forest ke ki c root ext pl -> x <> 0 -> v <> 0 -> pl x = Out ->
    exists c' r', t_attach o ki c (root v) x = Val (c', r') /\
      forest ke ki c' (upd root v r') ext (upd pl x (Int v)) /\ c' 0 = c 0.
  Proof.
    intros F X0 V X.
    destruct (inv_attach o OK ki c (root v) _ x (fo_int _ _ _ _ _ _ F v V)) as (c' & r' & E & T & FR); auto;
      [congruence|now apply F|].
    exists c', r'. split; [exact E|]. split.
    - constructor.
      + eapply tree_inv_ext; [| | |apply F]; auto.
        * intros i. cbn. updcase; [subst; rewrite X; split; discriminate|tauto].
        * intros i K. cbn in K. apply FR; congruence.
      + intros w W. unfold upd at 1. destruct (N.eqb_spec w v) as [->|NE].
        * eapply tree_inv_ext; [| | |exact T]; auto.
          intros i. cbn. updcase; [subst; tauto|tauto].
        * eapply tree_inv_ext; [| | |apply (fo_int _ _ _ _ _ _ F w W)]; auto.
          -- intros i. cbn. updcase; [subst; rewrite X; split; congruence|tauto].
          -- intros i K. cbn in K. apply FR; congruence.
      + intros y Y K. updcase; [discriminate|]. rewrite FR by congruence. now apply F.
      + intros y. updcase; [congruence|apply F].
    - apply FR; auto. intros K. eapply (tree_inv_nonzero _ _ _ _ 0 (fo_int _ _ _ _ _ _ F v V)); eauto.
  Qed.

  Lemma forest_detach_ext c root ext pl x :
    forest ke ki c root ext pl -> pl x = Ext ->
    (forall j, pl j = Ext -> ke j = ke x -> j = x) ->
    exists c' r', t_detach o ke c ext x = Val (c', r') /\
      forest ke ki c' root r' (upd pl x Out) /\ c' 0 = c 0.
  Proof.
    intros F X KD.
    destruct (inv_detach o OK ke c ext _ x (fo_ext _ _ _ _ _ _ F) X KD) as (c' & r' & E & T & C0 & FR).
    exists c', r'. split; [exact E|]. split.
    - constructor.
      + eapply tree_inv_ext; [| | |exact T]; auto.
        intros i. cbn. updcase; [subst; split; [tauto|discriminate]|tauto].
      + intros w W. eapply tree_inv_ext; [| | |apply (fo_int _ _ _ _ _ _ F w W)]; auto.
        * intros i. cbn. updcase; [subst; rewrite X; split; congruence|tauto].
        * intros i K. cbn in K. apply FR. congruence.
      + intros y Y K. updcase; [now subst|]. rewrite FR by congruence. now apply F.
      + intros y. updcase; [discriminate|apply F].
    - apply FR. intros K. eapply (tree_inv_nonzero _ _ _ _ 0 (fo_ext _ _ _ _ _ _ F)); eauto.
  Qed.

  Lemma forest_attach_ext c root ext pl x :
    forest ke ki c root ext pl -> x <> 0 -> pl x = Out ->
    exists c' r', t_attach o ke c ext x = Val (c', r') /\
      forest ke ki c' root r' (upd pl x Ext) /\ c' 0 = c 0.
  Proof.
    intros F X0 X.
    destruct (inv_attach o OK ke c ext _ x (fo_ext _ _ _ _ _ _ F)) as (c' & r' & E & T & FR); auto;
      [congruence|now apply F|].
    exists c', r'. split; [exact E|]. split.
    - constructor.
      + eapply tree_inv_ext; [| | |exact T]; auto.
        intros i. cbn. updcase; [subst; tauto|tauto].
      + intros w W. eapply tree_inv_ext; [| | |apply (fo_int _ _ _ _ _ _ F w W)]; auto.
        * intros i. cbn. updcase; [subst; rewrite X; split; congruence|tauto].
        * intros i K. cbn in K. apply FR; congruence.
      + intros y Y K. updcase; [discriminate|]. rewrite FR by congruence. now apply F.
      + intros y. updcase; [congruence|apply F].
    - apply FR; auto. intros K. eapply (tree_inv_nonzero _ _ _ _ 0 (fo_ext _ _ _ _ _ _ F)); eauto.
  Qed.
End Ops.

(** ** Walks over one internal tree *)
Section Inorder.
  Variable len : N.
  Variable c : N -> nd.
  Variable lk : N -> link.
  Context {H : Type}.
  Variable h : rhandler H.

  Lemma each_inorder_ok t : forall fuel root s,
    trep c root t -> (forall i, In i (elems t) -> i < len) -> (height t < fuel)%nat ->
    each_inorder fuel len c lk root h s = Val (run_handler h (map lk (elems t)) s).
  Proof.
    induction t as [|l IHl i r IHr]; intros fuel root s HR B HT; (destruct fuel as [|f]; [cbn in HT; lia|]); cbn [each_inorder].
    - cbn in HR. subst root. reflexivity.
    - cbn [trep] in HR. destruct HR as (-> & Hi & _ & Hl & Hr). cbn [height] in HT.
      destruct (N.eqb_spec i 0); [congruence|].
      assert (IL : i < len) by (apply B; apply in_elems_m).
      rewrite left_or_default_T, right_or_default_T by auto. cbn [obind].
      rewrite (IHl f _ s Hl) by (try lia; intros j J; apply B; now apply in_elems_l). cbn [obind].
      cbn [elems]. rewrite map_app, run_handler_app. cbn [map].
      destruct (run_handler h (map lk (elems l)) s) as [s1 [|]]; [|reflexivity].
      rewrite rd_ok by auto. cbn [obind]. cbn [run_handler].
      destruct (h s1 (lk i)) as [s2 [|]]; [|reflexivity].
      apply IHr; try lia; auto. intros j J. apply B. now apply in_elems_r.
  Qed.
End Inorder.

Section IntWalks.
  Variable len n : N.
  Variable k : N -> key.
  Variable c : N -> nd.
  Variable root : N.
  Variable P : N -> Prop.
  Hypothesis B : forall i, P i -> 1 <= i <= n.
  Hypothesis NL : n < len.
  Variable fuel : nat.
  Hypothesis F : (N.to_nat n < fuel)%nat.

  Lemma int_each base b :
    tree_inv k c root P -> (forall i, P i -> base i = b) ->
    exists U V : list N,
      NoDup U /\ NoDup V /\ (forall i, In i U <-> P i) /\ (forall i, In i V <-> P i) /\
      (forall H lk (h : rhandler H) s, each_inorder fuel len c lk root h s = Val (run_handler h (map lk U) s)) /\
      (forall H lk (h : rhandler H) s, each_usages_tree fuel len c base lk b root h s = Val (run_handler h (map lk V) s)) /\
      (forall len', n < len' -> size_or_zero len' c root = Val (N.of_nat (length U))) /\ length V = length U.
  Proof.
    intros (t & HR & ND & HS & HE) BB.
    assert (Bt : forall i, In i (elems t) -> i < len) by (intros i Hi; apply HE, B in Hi; lia).
    assert (SZ : tsize t <= n).
    { unfold tsize. apply bounded_length; auto. intros i Hi. apply B, HE, Hi. }
    assert (HT : (height t < fuel)%nat).
    { pose proof (height_elems t). unfold tsize in SZ. lia. }
    assert (BE : forall i, In i (elems t) -> base i = b) by (intros i Hi; apply BB, HE, Hi).
    assert (BS : bsorted base (elems t)).
    { unfold bsorted. clear -BE. induction (elems t) as [|a l IH]; constructor.
      - apply IH. intros; apply BE; now right.
      - apply Forall_forall. intros x X. rewrite (BE a), (BE x); [lia|now right|now left]. }
    pose proof (usages_order_perm base b t BS) as PM.
    assert (FE : filter (fun i => base i =? b) (elems t) = elems t).
    { clear -BE. induction (elems t) as [|a l IH]; [reflexivity|]. cbn [filter].
      rewrite (BE a) by now left. rewrite N.eqb_refl, IH; auto. intros; apply BE; now right. }
    rewrite FE in PM.
    exists (elems t), (usages_order base b t). split; [auto|]. split; [eapply Permutation_NoDup; [symmetry; exact PM|auto]|].
    split; [auto|]. split.
    { intros i. rewrite <- HE. split; intros K; [now apply (Permutation_in _ PM) in K|now apply (Permutation_in _ (Permutation_sym PM))]. }
    split; [intros; apply each_inorder_ok; auto|]. split; [intros; apply each_usages_tree_ok; auto|].
    split; [intros len' NL'; apply size_or_zero_rep; auto; intros i Hi; apply HE, B in Hi; lia|now apply Permutation_length].
  Qed.
End IntWalks.
