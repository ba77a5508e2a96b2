(** A concrete implementation of the tree operations that meets the contract of Trees.v.

    The trees crate is not in the repository; this is NOT its rotation algorithm but a
    plain search-tree insertion/removal carried out on the same memory columns.  It shows
    that the contract [tree_ops_ok] is satisfiable and makes the models executable. *)
From Coq Require Import NArith List Bool Lia Permutation Sorted.
From Verif Require Import Base Trees.
Import ListNotations.
Open Scope N_scope.

Fixpoint decode (fuel : nat) (c : N -> nd) (root : N) : tree :=
  match fuel with
  | O => E
  | S f => if root =? 0 then E else T (decode f c (nl (c root))) root (decode f c (nr (c root)))
  end.

Definition troot (t : tree) : N := match t with E => 0 | T _ i _ => i end.

Fixpoint encode (t : tree) (c : N -> nd) : N -> nd :=
  match t with
  | E => c
  | T l i r => upd (encode r (encode l c)) i (mkNd (troot l) (troot r) (tsize t))
  end.

Fixpoint ins (k : N -> key) (x : N) (t : tree) : tree :=
  match t with
  | E => T E x E
  | T l i r => if klt (k x) (k i) then T (ins k x l) i r else T l i (ins k x r)
  end.

Fixpoint merge (l r : tree) : tree :=
  match l with E => r | T a i b => T a i (merge b r) end.

Fixpoint del (k : N -> key) (x : N) (t : tree) : tree :=
  match t with
  | E => E
  | T l i r =>
      if i =? x then merge l r
      else if klt (k x) (k i) then T (del k x l) i r
      else T l i (del k x r)
  end.

Definition load (c : N -> nd) (root : N) : tree := decode (N.to_nat (nz (c root))) c root.

Definition ref_attach (k : N -> key) (c : N -> nd) (root x : N) : out ((N -> nd) * N) :=
  let t := ins k x (if root =? 0 then E else load c root) in
  Val (encode t c, troot t).

Definition ref_detach (k : N -> key) (c : N -> nd) (root x : N) : out ((N -> nd) * N) :=
  let t := del k x (if root =? 0 then E else load c root) in
  Val (upd (encode t c) x nd0, troot t).

Definition ref_tree_ops : tree_ops := mkTreeOps ref_attach ref_detach.

Lemma decode_ok c : forall t fuel root, trep c root t -> (height t <= fuel)%nat -> decode fuel c root = t.
Proof.
  induction t as [|l IHl i r IHr]; intros fuel root H F.
  - simpl in H. subst. destruct fuel; reflexivity.
  - simpl in F. destruct fuel as [|f]; [lia|]. destruct H as (-> & Hi & _ & Hl & Hr).
    cbn [decode]. destruct (N.eqb_spec i 0); [congruence|].
    rewrite (IHl f), (IHr f) by (auto; lia). reflexivity.
Qed.

Lemma load_ok c root t : trep c root t -> (if root =? 0 then E else load c root) = t.
Proof.
  intros H. destruct (N.eqb_spec root 0) as [->|E].
  - symmetry. now apply trep_zero in H.
  - unfold load. apply decode_ok; auto. rewrite (trep_root_size _ _ _ H E).
    unfold tsize. pose proof (height_elems t). lia.
Qed.

Lemma encode_other t : forall c y, ~ In y (elems t) -> encode t c y = c y.
Proof.
  induction t as [|l IHl i r IHr]; intros c y H; [reflexivity|]. simpl in *.
  rewrite in_app_iff in H. simpl in H.
  rewrite upd_other by (intros ->; tauto). rewrite IHr by tauto. apply IHl. tauto.
Qed.

Lemma encode_trep : forall t c, NoDup (elems t) -> ~ In 0 (elems t) -> trep (encode t c) (troot t) t.
Proof.
  induction t as [|l IHl i r IHr]; intros c ND NZ; [reflexivity|].
  cbn [elems] in ND, NZ. rewrite in_app_iff in NZ. simpl in NZ.
  pose proof (NoDup_remove_1 _ _ _ ND) as ND1. pose proof (NoDup_remove_2 _ _ _ ND) as ND2.
  rewrite in_app_iff in ND2.
  assert (NDl : NoDup (elems l)) by (apply NoDup_app_inv in ND1; tauto).
  assert (NDr : NoDup (elems r)) by (apply NoDup_app_inv in ND1; tauto).
  assert (DJ : forall y, In y (elems l) -> In y (elems r) -> False).
  { clear -ND1. intros y H1 H2. induction (elems l) as [|a L IH]; simpl in *; [tauto|].
    inversion ND1; subst. destruct H1 as [->|H1]; [apply H3, in_or_app; auto|auto]. }
  cbn [encode troot trep]. rewrite upd_same. cbn [nl nr nz].
  split; [reflexivity|]. split; [intros ->; tauto|]. split; [reflexivity|]. split.
  - apply trep_ext with (c := encode l c).
    + intros y Hy. rewrite upd_other by (intros ->; tauto). apply encode_other. intros K; eapply DJ; eauto.
    + apply IHl; auto.
  - apply trep_ext with (c := encode r (encode l c)).
    + intros y Hy. rewrite upd_other by (intros ->; tauto). reflexivity.
    + apply IHr; auto.
Qed.

Lemma ins_perm k x t : Permutation (elems (ins k x t)) (x :: elems t).
Proof.
  induction t as [|l IHl i r IHr]; simpl; [reflexivity|].
  destruct (klt (k x) (k i)); simpl.
  - change (x :: elems l ++ i :: elems r) with ((x :: elems l) ++ i :: elems r).
    now apply Permutation_app_tail.
  - rewrite IHr. transitivity (elems l ++ x :: i :: elems r).
    + apply Permutation_app_head. constructor.
    + symmetry. apply Permutation_middle.
Qed.

Lemma ins_sorted k x t : wsorted k (elems t) -> wsorted k (elems (ins k x t)).
Proof.
  unfold wsorted. induction t as [|l IHl i r IHr]; simpl; intros H.
  - repeat constructor.
  - apply SS_T in H as (S1 & S2 & S3 & S4 & S5).
    destruct (klt (k x) (k i)) eqn:E; simpl; apply SS_T; repeat split; auto.
    + intros y Hy. apply (Permutation_in _ (ins_perm k x l)) in Hy. destruct Hy as [<-|Hy]; auto.
      now apply klt_asym.
    + intros y z Hy Hz. apply (Permutation_in _ (ins_perm k x l)) in Hy. destruct Hy as [<-|Hy]; auto.
      eapply klt_neg_trans; [|exact (S4 _ Hz)]. now apply klt_asym.
    + intros y Hy. apply (Permutation_in _ (ins_perm k x r)) in Hy. destruct Hy as [<-|Hy]; auto.
    + intros y z Hy Hz. apply (Permutation_in _ (ins_perm k x r)) in Hz. destruct Hz as [<-|Hz]; auto.
      eapply klt_neg_trans; [exact (S3 _ Hy)|exact E].
Qed.

Lemma merge_elems l r : elems (merge l r) = elems l ++ elems r.
Proof. induction l as [|a _ i b IH]; simpl; [reflexivity|]. rewrite IH, <- app_assoc. reflexivity. Qed.

(** Removal takes the in-order sequence to itself without x. *)
Lemma del_elems k x t :
  NoDup (elems t) -> wsorted k (elems t) -> key_alone k x (elems t) -> In x (elems t) ->
  exists l1 l2, elems t = l1 ++ x :: l2 /\ elems (del k x t) = l1 ++ l2.
Proof.
  unfold wsorted. induction t as [|l IHl i r IHr]; simpl; intros ND H KD HI; [tauto|].
  apply SS_T in H as (S1 & S2 & S3 & S4 & S5).
  pose proof (NoDup_remove_1 _ _ _ ND) as ND1.
  assert (NDl : NoDup (elems l)) by (apply NoDup_app_inv in ND1; tauto).
  assert (NDr : NoDup (elems r)) by (apply NoDup_app_inv in ND1; tauto).
  assert (KDl : key_alone k x (elems l)).
  { intros b Hb. apply KD; apply in_or_app; auto. }
  assert (KDr : key_alone k x (elems r)).
  { intros b Hb. apply KD; apply in_or_app; right; now right. }
  destruct (N.eqb_spec i x) as [->|NE].
  - exists (elems l), (elems r). split; [reflexivity|apply merge_elems].
  - rewrite in_app_iff in HI. simpl in HI.
    destruct (klt (k x) (k i)) eqn:E.
    + destruct HI as [HI|[HI|HI]]; [|congruence|specialize (S4 _ HI); congruence].
      destruct IHl as (l1 & l2 & E1 & E2); auto.
      exists l1, (l2 ++ i :: elems r). cbn [elems]. rewrite E1, E2, <- !app_assoc. split; reflexivity.
    + destruct HI as [HI|[HI|HI]]; [|congruence|].
      * exfalso. apply NE. apply KD; [apply in_or_app; right; now left|].
        symmetry. apply klt_antisym; auto.
      * destruct IHr as (l1 & l2 & E1 & E2); auto.
        exists (elems l ++ i :: l1), l2. cbn [elems]. rewrite E1, E2, <- !app_assoc. split; reflexivity.
Qed.

Theorem ref_tree_ops_ok : tree_ops_ok ref_tree_ops.
Proof.
  constructor.
  - intros k c root t x HR ND HS X0 XI HX. simpl. unfold ref_attach.
    rewrite (load_ok _ _ _ HR). eexists _, _, _. split; [reflexivity|].
    pose proof (ins_perm k x t) as P. split; [|split; [|split]].
    + apply encode_trep.
      * eapply Permutation_NoDup; [symmetry; exact P|]. constructor; auto.
      * intros K. apply (Permutation_in _ P) in K. destruct K as [K|K]; [congruence|].
        eapply trep_nonzero; eauto.
    + now apply ins_sorted.
    + exact P.
    + intros y Y1 Y2. apply encode_other. intros K. apply (Permutation_in _ P) in K.
      destruct K; congruence.
  - intros k c root t x HR ND HS KD HI. simpl. unfold ref_detach.
    rewrite (load_ok _ _ _ HR). eexists _, _, _. split; [reflexivity|].
    destruct (del_elems k x t ND HS KD HI) as (l1 & l2 & E1 & E2).
    rewrite E1 in ND. pose proof (NoDup_remove_1 _ _ _ ND) as ND1.
    pose proof (NoDup_remove_2 _ _ _ ND) as ND2.
    pose proof (trep_nonzero _ _ _ HR) as NZ. rewrite E1 in NZ.
    split; [|split; [|split; [|split]]].
    + apply trep_ext with (c := encode (del k x t) c).
      * intros y Hy. apply upd_other. intros ->. rewrite E2 in Hy. auto.
      * apply encode_trep; rewrite E2; auto.
        intros K. apply NZ. rewrite in_app_iff in *. simpl. tauto.
    + unfold wsorted in *. rewrite E2. rewrite E1 in HS. apply SS_T in HS as (S1 & S2 & S3 & S4 & S5).
      apply SS_app. auto.
    + rewrite E1, E2. apply Permutation_middle.
    + apply upd_same.
    + intros y Hy. rewrite upd_other by (intros ->; rewrite E1 in Hy; apply Hy, in_or_app; right; now left).
      apply encode_other. rewrite E2. intros K. apply Hy. rewrite E1. rewrite in_app_iff in *. simpl. tauto.
Qed.
