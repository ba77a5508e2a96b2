(** The invariant of one tree stored in a column, as a set of nodes, and how the external
    operations and the walks act on it. *)
From Coq Require Import NArith List Bool Lia Permutation Sorted.
From Verif Require Import Base Trees.
Import ListNotations.
Open Scope N_scope.

(** A tree with node set [P] ordered by key [k] hangs below [root] in column [c]. *)
Definition tree_at (k : N -> key) (c : N -> nd) (root : N) (P : N -> Prop) (t : tree) : Prop :=
  trep c root t /\ NoDup (elems t) /\ wsorted k (elems t) /\ (forall i, In i (elems t) <-> P i).

Definition tree_inv k c root P := exists t, tree_at k c root P t.

Lemma wsorted_ext k k' l : (forall i, In i l -> k' i = k i) -> wsorted k l -> wsorted k' l.
Proof.
  unfold wsorted. induction l as [|a l IH]; intros E H; [constructor|].
  inversion H; subst. constructor.
  - apply IH; auto. intros; apply E; now right.
  - rewrite Forall_forall in *. intros b Hb. rewrite !E by (auto; now left + now right). 
    apply H3; auto.
Qed.

Lemma tree_inv_ext k k' c c' root (P P' : N -> Prop) :
  (forall i, P i <-> P' i) -> (forall i, P i -> k' i = k i) -> (forall i, P i -> c' i = c i) ->
  tree_inv k c root P -> tree_inv k' c' root P'.
Proof.
  intros EP EK EC (t & HR & ND & HS & HE). exists t. repeat split; auto.
  - eapply trep_ext; [|exact HR]. intros i Hi. apply EC. now apply HE.
  - eapply wsorted_ext; [|exact HS]. intros i Hi. apply EK. now apply HE.
  - intros K. apply EP, HE, K.
  - intros K. apply HE, EP, K.
Qed.

Lemma tree_inv_nonzero k c root P i : tree_inv k c root P -> P i -> i <> 0.
Proof.
  intros (t & HR & _ & _ & HE) Hi ->. apply HE in Hi. eapply trep_nonzero; eauto.
Qed.

Lemma tree_inv_size k c root P i : tree_inv k c root P -> P i -> nz (c i) <> 0.
Proof. intros (t & HR & _ & _ & HE) Hi. apply HE in Hi. eapply trep_size; eauto. Qed.

Lemma tree_inv_empty k c : tree_inv k c 0 (fun _ => False).
Proof. exists E. repeat split; simpl; auto; try constructor; tauto. Qed.

Lemma tree_inv_root0 k c P i : tree_inv k c 0 P -> ~ P i.
Proof. intros (t & HR & _ & _ & HE) Hi. apply trep_zero in HR. subst t. apply HE in Hi. exact Hi. Qed.

Lemma tree_inv_root_in k c root P : tree_inv k c root P -> root = 0 \/ P root.
Proof.
  intros (t & HR & _ & _ & HE). destruct (N.eq_dec root 0); auto. right. apply HE.
  eapply trep_root_in; eauto.
Qed.

Section Ops.
  Variable o : tree_ops.
  Hypothesis OK : tree_ops_ok o.

  Lemma inv_attach k c root P x :
    tree_inv k c root P -> x <> 0 -> ~ P x -> c x = nd0 ->
    exists c' root', t_attach o k c root x = Val (c', root') /\
      tree_inv k c' root' (fun i => i = x \/ P i) /\
      (forall y, y <> x -> ~ P y -> c' y = c y).
  Proof.
    intros (t & HR & ND & HS & HE) X0 XP XC.
    assert (XI : ~ In x (elems t)) by (rewrite HE; auto).
    destruct (attach_ok _ OK k c root t x) as (c' & r' & t' & E1 & E2 & E3 & E4 & E5); auto.
    exists c', r'. split; [exact E1|]. split.
    - exists t'. split; [exact E2|]. split.
      { eapply Permutation_NoDup; [symmetry; exact E4|]. now constructor. }
      split; [exact E3|]. intros i. rewrite <- HE. split.
      + intros K. apply (Permutation_in _ E4) in K. destruct K; auto.
      + intros K. apply (Permutation_in _ (Permutation_sym E4)). destruct K as [->|K]; [now left|now right].
    - intros y Y1 Y2. apply E5; auto. now rewrite HE.
  Qed.

  Lemma inv_detach k c root P x :
    tree_inv k c root P -> P x ->
    (forall j, P j -> k j = k x -> j = x) ->
    exists c' root', t_detach o k c root x = Val (c', root') /\
      tree_inv k c' root' (fun i => i <> x /\ P i) /\
      c' x = nd0 /\ (forall y, ~ P y -> c' y = c y).
  Proof.
    intros (t & HR & ND & HS & HE) XP XD.
    assert (XI : In x (elems t)) by (rewrite HE; auto).
    destruct (detach_ok _ OK k c root t x) as (c' & r' & t' & E1 & E2 & E3 & E4 & E5 & E6); auto.
    { intros j Hj. apply XD; now apply HE. }
    exists c', r'. split; [exact E1|]. split; [|split; [exact E5|]].
    - assert (ND' : NoDup (x :: elems t')) by (eapply Permutation_NoDup; [symmetry; exact E4|exact ND]).
      inversion ND' as [|? ? N1 N2]; subst.
      exists t'. split; [exact E2|]. split; [exact N2|].
      split; [exact E3|]. intros i. rewrite <- HE. split.
      + intros K. split; [congruence|]. apply (Permutation_in _ E4). now right.
      + intros [K1 K2]. apply (Permutation_in _ (Permutation_sym E4)) in K2.
        destruct K2 as [K2|K2]; [congruence|exact K2].
    - intros y Hy. apply E6. now rewrite HE.
  Qed.
End Ops.

(** A duplicate-free list of numbers in 1..n has at most n elements. *)
Lemma bounded_length (l : list N) n :
  NoDup l -> (forall i, In i l -> 1 <= i <= n) -> N.of_nat (length l) <= n.
Proof.
  intros ND B. assert (length l <= length (range1 n))%nat.
  { apply NoDup_incl_length; auto. intros i Hi. apply in_range1. auto. }
  rewrite length_range1 in H. lia.
Qed.

Section InvWalks.
  Variable tmax len n : N.
  Variable k : N -> key.
  Variable c : N -> nd.
  Variable root : N.
  Variable P : N -> Prop.
  Hypothesis B : forall i, P i -> 1 <= i <= n.
  Hypothesis NL : n < len.
  Variable fuel : nat.
  Hypothesis F : (N.to_nat n < fuel)%nat.

  Lemma inv_each :
    tree_inv k c root P ->
    exists U : N -> list N,
      (forall b, NoDup (U b)) /\
      (forall b i, In i (U b) <-> P i /\ fst (k i) = b) /\
      (forall H lk b (h : rhandler H) s,
         each_usages_tree fuel len c (fun i => fst (k i)) lk b root h s =
         Val (run_handler h (map lk (U b)) s)) /\
      (forall b, (root = 0 -> nz (c 0) = 0) -> n <= tmax ->
         count_usages_tree fuel tmax len c (fun i => fst (k i)) root b = Val (N.of_nat (length (U b)))).
  Proof.
    intros (t & HR & ND & HS & HE).
    assert (Bt : forall i, In i (elems t) -> i < len) by (intros i Hi; apply HE, B in Hi; lia).
    assert (SZ : tsize t <= n).
    { unfold tsize. apply bounded_length; auto. intros i Hi. apply B, HE, Hi. }
    assert (HT : (height t < fuel)%nat).
    { pose proof (height_elems t). unfold tsize in SZ. lia. }
    pose proof (wsorted_bsorted _ _ HS) as BS.
    exists (fun b => usages_order (fun i => fst (k i)) b t).
    pose proof (fun b => usages_order_perm (fun i => fst (k i)) b t BS) as PM.
    split; [|split; [|split]].
    - intros b. eapply Permutation_NoDup; [symmetry; apply PM|]. now apply NoDup_filter.
    - intros b i. rewrite <- HE. split.
      + intros K. apply (Permutation_in _ (PM b)) in K. apply filter_In in K as [K1 K2].
        apply N.eqb_eq in K2. auto.
      + intros [K1 K2]. apply (Permutation_in _ (Permutation_sym (PM b))). apply filter_In.
        split; auto. now apply N.eqb_eq.
    - intros H lk b h s. apply each_usages_tree_ok; auto.
    - intros b Z M. rewrite (count_usages_tree_ok tmax len c _ b t fuel root); auto; try lia.
      unfold count_if. now rewrite (Permutation_length (PM b)).
  Qed.

  Lemma inv_search q :
    tree_inv k c root P ->
    exists r, search_tree fuel len c k q root = Val r /\
      ((r = 0 /\ forall i, P i -> k i <> q) \/ (P r /\ k r = q)).
  Proof.
    intros (t & HR & ND & HS & HE).
    assert (Bt : forall i, In i (elems t) -> i < len) by (intros i Hi; apply HE, B in Hi; lia).
    assert (SZ : tsize t <= n).
    { unfold tsize. apply bounded_length; auto. intros i Hi. apply B, HE, Hi. }
    assert (HT : (height t < fuel)%nat).
    { pose proof (height_elems t). unfold tsize in SZ. lia. }
    destruct (search_tree_ok len c k q t fuel root HR Bt HS HT) as (r & E & [[-> K]|[K1 K2]]).
    - exists 0. split; auto. left. split; auto. intros i Hi. apply K. now apply HE.
    - exists r. split; auto. right. split; auto. now apply HE.
  Qed.
End InvWalks.
