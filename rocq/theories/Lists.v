(** The list of unused links: a circular doubly linked list threaded through the
    source (previous) and target (next) fields of free slots
    (doublets/src/mem/unit/generic/unused_links.rs, split/generic/unused_links.rs). *)
From Coq Require Import NArith List Bool Lia Permutation.
From Verif Require Import Base.
Import ListNotations.
Open Scope N_scope.

(** Header fields of the list: first_free, last_free, free
    (unit/generic/unused_links.rs:36-60). *)
Record lhdr := mkLhdr { lfirst : N; llast : N; lcount : N }.

(** [seg d p l n]: the elements of [l] are linked one after another, the predecessor of
    the first is [p], the successor of the last is [n]. *)
Fixpoint seg (d : N -> N * N) (p : N) (l : list N) (n : N) : Prop :=
  match l with
  | [] => True
  | x :: l' => d x = (p, hd n l') /\ seg d x l' n
  end.

Definition lrep (h : lhdr) (d : N -> N * N) (l : list N) : Prop :=
  NoDup l /\ ~ In 0 l /\
  lfirst h = hd 0 l /\ llast h = last l 0 /\ lcount h = N.of_nat (length l) /\
  seg d (last l 0) l (hd 0 l).

(** External crate [trees]: AbsoluteCircularLinkedList::attach_as_first / detach. *)
Record list_ops := mkListOps {
  l_attach : lhdr -> (N -> N * N) -> N -> out (lhdr * (N -> N * N));
  l_detach : lhdr -> (N -> N * N) -> N -> out (lhdr * (N -> N * N))
}.

Definition lremove (x : N) (l : list N) : list N := remove N.eq_dec x l.

(** The contract assumed of it. *)
Record list_ops_ok (o : list_ops) : Prop := {
  l_attach_ok : forall h d l x,
    lrep h d l -> x <> 0 -> ~ In x l ->
    exists h' d', l_attach o h d x = Val (h', d') /\ lrep h' d' (x :: l) /\
      (forall y, y <> x -> ~ In y l -> d' y = d y);
  l_detach_ok : forall h d l x,
    lrep h d l -> In x l ->
    exists h' d', l_detach o h d x = Val (h', d') /\ lrep h' d' (lremove x l) /\
      d' x = (0, 0) /\ (forall y, ~ In y l -> d' y = d y)
}.

(** ** Facts *)
Lemma seg_in_pair d : forall l p n x, seg d p l n -> In x l ->
  In (fst (d x)) (p :: l) /\ In (snd (d x)) (l ++ [n]).
Proof.
  induction l as [|a l IH]; simpl; intros p n x HS HI; [tauto|].
  destruct HS as [Hd HS]. destruct HI as [<-|HI].
  - rewrite Hd; simpl. split; [now left|]. destruct l; simpl; auto.
  - destruct (IH _ _ _ HS HI) as [K1 K2]. split; [|now right].
    destruct K1 as [<-|K1]; auto.
Qed.

Lemma last_in {A} (l : list A) d : l <> [] -> In (last l d) l.
Proof.
  induction l as [|a l IH]; intros H; [congruence|].
  destruct l as [|b l]; [now left|]. right. apply IH. discriminate.
Qed.

(** A free slot always has a non-null "previous" (its source field). *)
Lemma lrep_prev_nonzero h d l x : lrep h d l -> In x l -> fst (d x) <> 0.
Proof.
  intros (ND & NZ & _ & _ & _ & HS) HI E.
  destruct (seg_in_pair _ _ _ _ _ HS HI) as [K _]. rewrite E in K.
  destruct K as [K|K]; [|auto].
  assert (L : l <> []) by (destruct l; [destruct HI|discriminate]).
  apply (last_in l 0) in L. rewrite K in L. auto.
Qed.

Lemma seg_ext d d' : forall l p n, (forall y, In y l -> d' y = d y) -> seg d p l n -> seg d' p l n.
Proof.
  induction l as [|a l IH]; simpl; intros p n E H; [exact I|].
  destruct H as [H1 H2]. split; [rewrite E; auto|]. apply IH; auto.
Qed.

Lemma lrep_ext h d d' l : (forall y, In y l -> d' y = d y) -> lrep h d l -> lrep h d' l.
Proof.
  intros E (H1 & H2 & H3 & H4 & H5 & H6). repeat split; auto. eapply seg_ext; eauto.
Qed.

Lemma lremove_notin x l : ~ In x l -> lremove x l = l.
Proof. intros. now apply notin_remove. Qed.

Lemma in_lremove x l y : In y (lremove x l) <-> In y l /\ y <> x.
Proof.
  unfold lremove. split.
  - intros H. apply in_remove in H. tauto.
  - intros [H1 H2]. now apply in_in_remove.
Qed.

Lemma lremove_head x l : ~ In x l -> lremove x (x :: l) = l.
Proof.
  intros H. unfold lremove. simpl. destruct (N.eq_dec x x); [|congruence].
  now apply notin_remove.
Qed.

Lemma lremove_app x l1 l2 : ~ In x l1 -> ~ In x l2 -> lremove x (l1 ++ x :: l2) = l1 ++ l2.
Proof.
  intros H1 H2. unfold lremove. rewrite remove_app. simpl.
  destruct (N.eq_dec x x); [|congruence]. rewrite !notin_remove by auto. reflexivity.
Qed.

Lemma nodup_lremove x l : NoDup l -> NoDup (lremove x l).
Proof.
  induction l as [|a l IH]; simpl; intros H; [constructor|]. inversion H; subst.
  unfold lremove in *; simpl. destruct (N.eq_dec x a); auto. constructor; auto.
  intros K. apply in_remove in K. tauto.
Qed.

(** ** A concrete implementation

    The algorithm of AbsoluteCircularLinkedList as published for the trees crate,
    written from memory because the crate is not in the repository.  It shows that the
    contract can be met and makes the models executable. *)
Definition set_prev (d : N -> N * N) (x p : N) := upd d x (p, snd (d x)).
Definition set_next (d : N -> N * N) (x n : N) := upd d x (fst (d x), n).

Definition impl_attach_as_first (h : lhdr) (d : N -> N * N) (x : N) : out (lhdr * (N -> N * N)) :=
  let first := lfirst h in
  if first =? 0 then
    Val (mkLhdr x x (lcount h + 1), set_next (set_prev d x x) x x)
  else
    let prev := fst (d first) in
    let d1 := set_next (set_prev d x prev) x first in
    let d2 := set_next d1 prev x in
    let d3 := set_prev d2 first x in
    Val (mkLhdr x (llast h) (lcount h + 1), d3).

Definition impl_detach (h : lhdr) (d : N -> N * N) (x : N) : out (lhdr * (N -> N * N)) :=
  let prev := fst (d x) in
  let next := snd (d x) in
  if next =? x then
    Val (mkLhdr 0 0 (lcount h - 1), upd d x (0, 0))
  else
    let d1 := set_next d prev next in
    let d2 := set_prev d1 next prev in
    let f := if lfirst h =? x then next else lfirst h in
    let l := if llast h =? x then prev else llast h in
    Val (mkLhdr f l (lcount h - 1), upd d2 x (0, 0)).

Definition ref_list_ops : list_ops := mkListOps impl_attach_as_first impl_detach.

Lemma last_cons {A} (a : A) l p : last (a :: l) p = last l a.
Proof.
  revert a; induction l as [|b l IH]; intros a; [reflexivity|].
  change (last (a :: b :: l) p) with (last (b :: l) p). rewrite IH.
  destruct l as [|c l]; [reflexivity|].
  change (last (b :: c :: l) a) with (last (c :: l) a).
  symmetry. rewrite <- (IH b). rewrite (IH b). clear. revert c.
  induction l as [|e l IH]; intros c; [reflexivity|]. exact (IH e).
Qed.

Lemma last_default {A} (l : list A) d d' : l <> [] -> last l d = last l d'.
Proof. destruct l as [|a l]; [congruence|]. intros _. now rewrite !last_cons. Qed.

Lemma last_app {A} (l1 l2 : list A) d : last (l1 ++ l2) d = last l2 (last l1 d).
Proof.
  revert d; induction l1 as [|a l1 IH]; intros d; [reflexivity|].
  simpl app. rewrite !last_cons. apply IH.
Qed.

Lemma hd_app {A} (l1 l2 : list A) d : hd d (l1 ++ l2) = hd (hd d l2) l1.
Proof. destruct l1; reflexivity. Qed.

Lemma seg_app d : forall l1 l2 p n,
  seg d p (l1 ++ l2) n <-> seg d p l1 (hd n l2) /\ seg d (last l1 p) l2 n.
Proof.
  induction l1 as [|a l1 IH]; intros l2 p n.
  - simpl. tauto.
  - rewrite last_cons. cbn [app seg]. rewrite IH, hd_app. tauto.
Qed.

Lemma seg_set_first d a l p n p' :
  NoDup (a :: l) -> seg d p (a :: l) n -> seg (set_prev d a p') p' (a :: l) n.
Proof.
  intros ND [H1 H2]. inversion ND; subst. split.
  - unfold set_prev. rewrite upd_same, H1. reflexivity.
  - eapply seg_ext; [|exact H2]. intros y Hy. unfold set_prev. apply upd_other. congruence.
Qed.

Lemma seg_set_last d : forall l z p n n',
  NoDup (l ++ [z]) -> seg d p (l ++ [z]) n -> seg (set_next d z n') p (l ++ [z]) n'.
Proof.
  intros l z p n n' ND H. apply seg_app in H as [H1 [H2 _]]. apply seg_app. simpl. split.
  - simpl in H1. eapply seg_ext; [|exact H1]. intros y Hy. unfold set_next. apply upd_other.
    intros ->. apply NoDup_remove_2 in ND. rewrite app_nil_r in ND. auto.
  - split; [|exact I]. unfold set_next. rewrite upd_same, H2. reflexivity.
Qed.

Lemma seg_set_last' d l p n n' :
  l <> [] -> NoDup l -> seg d p l n -> seg (set_next d (last l 0) n') p l n'.
Proof.
  intros NE. destruct (exists_last NE) as (l' & z & ->).
  rewrite last_app. simpl. apply seg_set_last.
Qed.

Lemma seg_set_first' d l p n p' :
  l <> [] -> NoDup l -> seg d p l n -> seg (set_prev d (hd 0 l) p') p' l n.
Proof. destruct l; [congruence|]. intros _. apply seg_set_first. Qed.

Definition circ d l := seg d (last l 0) l (hd 0 l).

Lemma circ_rot d l1 l2 : circ d (l1 ++ l2) -> circ d (l2 ++ l1).
Proof.
  unfold circ. destruct l1 as [|a l1]; [now rewrite app_nil_r|].
  destruct l2 as [|b l2]; [now rewrite app_nil_r|].
  rewrite !seg_app, !last_app, !hd_app. cbn [hd]. rewrite !last_cons. tauto.
Qed.

Lemma impl_attach_ok h d l x :
  lrep h d l -> x <> 0 -> ~ In x l ->
  exists h' d', impl_attach_as_first h d x = Val (h', d') /\ lrep h' d' (x :: l) /\
    (forall y, y <> x -> ~ In y l -> d' y = d y).
Proof.
  intros (ND & NZ & HF & HL & HC & HS) X0 XI. unfold impl_attach_as_first.
  destruct l as [|a l].
  - simpl in HF. rewrite HF. simpl. eexists _, _. split; [reflexivity|]. split.
    + repeat split; simpl; auto.
      * constructor; auto.
      * intros [K|[]]; congruence.
      * simpl in HC. lia.
      * unfold set_next, set_prev. rewrite !upd_same. reflexivity.
    + intros y Y1 _. unfold set_next, set_prev. now rewrite !upd_other.
  - simpl in HF. rewrite HF.
    destruct (N.eqb_spec a 0) as [->|A0]; [exfalso; apply NZ; now left|].
    set (m := a :: l) in *.
    assert (MN : m <> []) by discriminate.
    assert (Hp : fst (d a) = last m 0) by (destruct HS as [K _]; now rewrite K).
    rewrite Hp. eexists _, _. split; [reflexivity|].
    assert (XL : x <> last m 0) by (intros E; apply XI; rewrite E; now apply last_in).
    assert (XA : x <> a) by (intros ->; apply XI; now left).
    split.
    + split; [constructor; auto|]. split; [intros [K|K]; [congruence|auto]|].
      split; [reflexivity|]. split; [cbn [llast]; rewrite HL, last_cons; now apply last_default|].
      split; [cbn [lcount length]; rewrite HC; cbn [length]; lia|].
      rewrite last_cons. rewrite (last_default m x 0 MN). cbn [hd seg]. split.
      * unfold set_prev at 1. rewrite upd_other by auto.
        unfold set_next at 1. rewrite upd_other by auto.
        unfold set_next, set_prev. rewrite !upd_same. reflexivity.
      * change a with (hd 0 m). apply seg_set_first' with (p := last m 0); auto.
        apply seg_set_last' with (n := hd 0 m); auto.
        eapply seg_ext; [|exact HS]. intros y Hy. unfold set_next, set_prev.
        rewrite !upd_other; auto; intros ->; auto.
    + intros y Y1 Y2. unfold set_prev at 1. rewrite upd_other by (intros ->; apply Y2; now left).
      unfold set_next at 1. rewrite upd_other by (intros ->; apply Y2; now apply last_in).
      unfold set_next, set_prev. now rewrite !upd_other.
Qed.

Lemma circ_detach d x m :
  NoDup (x :: m) -> m <> [] -> circ d (x :: m) ->
  snd (d x) = hd 0 m /\ fst (d x) = last m 0 /\
  circ (set_prev (set_next d (last m 0) (hd 0 m)) (hd 0 m) (last m 0)) m.
Proof.
  intros ND NE [H1 H2]. rewrite last_cons in H1. rewrite (last_default m x 0 NE) in H1.
  cbn [hd] in *. rewrite H1. inversion ND; subst. split; [destruct m; [congruence|reflexivity]|].
  split; [reflexivity|]. unfold circ. apply seg_set_first' with (p := x); auto.
  apply seg_set_last' with (n := x); auto.
Qed.

Lemma impl_detach_ok h d l x :
  lrep h d l -> In x l ->
  exists h' d', impl_detach h d x = Val (h', d') /\ lrep h' d' (lremove x l) /\
    d' x = (0, 0) /\ (forall y, ~ In y l -> d' y = d y).
Proof.
  intros (ND & NZ & HF & HL & HC & HS) HI.
  destruct (in_split _ _ HI) as (l1 & l2 & ->).
  assert (ND1 := ND). apply NoDup_remove in ND1 as [ND1 NI].
  assert (NI1 : ~ In x l1) by (intros K; apply NI, in_or_app; auto).
  assert (NI2 : ~ In x l2) by (intros K; apply NI, in_or_app; auto).
  rewrite lremove_app by auto.
  assert (NDr : NoDup (x :: l2 ++ l1)).
  { constructor; [rewrite in_app_iff; tauto|]. eapply Permutation_NoDup; [apply Permutation_app_comm|exact ND1]. }
  assert (CR : circ d (x :: l2 ++ l1)).
  { change (circ d ((x :: l2) ++ l1)). apply circ_rot. exact HS. }
  unfold impl_detach.
  destruct (list_eq_dec N.eq_dec (l2 ++ l1) []) as [E|NE].
  - apply app_eq_nil in E as [-> ->]. simpl in CR. destruct CR as [CR _].
    rewrite CR. simpl. rewrite N.eqb_refl. eexists _, _. split; [reflexivity|].
    split; [|split; [apply upd_same|]].
    + repeat split; simpl; auto; try constructor; simpl in HC; rewrite HC; reflexivity.
    + intros y Hy. apply upd_other. intros ->. apply Hy. now left.
  - destruct (circ_detach _ _ _ NDr NE CR) as (E1 & E2 & C').
    rewrite E1, E2. set (m := l2 ++ l1) in *.
    assert (Hh : In (hd 0 m) m) by (destruct m; [congruence|now left]).
    assert (Hl : In (last m 0) m) by (now apply last_in).
    assert (XM : ~ In x m) by (inversion NDr; auto).
    destruct (N.eqb_spec (hd 0 m) x) as [K|Kx]; [rewrite K in Hh; tauto|].
    eexists _, _. split; [reflexivity|].
    assert (MI : forall y, In y m <-> In y (l1 ++ l2)).
    { intros y. unfold m. rewrite !in_app_iff. tauto. }
    split; [|split; [apply upd_same|]].
    + split; [exact ND1|]. split; [intros K; apply NZ; rewrite in_app_iff in *; simpl; tauto|].
      split; [|split; [|split]].
      * cbn [lfirst]. rewrite HF. destruct l1 as [|a l1].
        -- simpl. rewrite N.eqb_refl. unfold m. now rewrite app_nil_r.
        -- simpl. destruct (N.eqb_spec a x) as [->|]; [exfalso; apply NI1; now left|reflexivity].
      * cbn [llast]. rewrite HL. rewrite !last_app, last_cons. destruct l2 as [|b l2].
        -- simpl. rewrite N.eqb_refl. reflexivity.
        -- destruct (N.eqb_spec (last (b :: l2) x) x) as [K|K].
           ++ exfalso. apply NI2. rewrite <- K at 1. apply last_in. discriminate.
           ++ apply last_default. discriminate.
      * cbn [lcount]. rewrite HC, !app_length. cbn [length]. lia.
      * change (circ (upd (set_prev (set_next d (last m 0) (hd 0 m)) (hd 0 m) (last m 0)) x (0, 0)) (l1 ++ l2)).
        apply circ_rot. fold m. unfold circ. eapply seg_ext; [|exact C'].
        intros y Hy. apply upd_other. intros ->; auto.
    + intros y Hy. rewrite upd_other by (intros ->; apply Hy; apply in_or_app; right; now left).
      assert (YM : ~ In y m). { rewrite MI. intros K. apply Hy. rewrite in_app_iff in *. simpl. tauto. }
      unfold set_prev. rewrite upd_other by (intros ->; auto).
      unfold set_next. rewrite upd_other by (intros ->; auto). reflexivity.
Qed.

Theorem ref_list_ops_ok : list_ops_ok ref_list_ops.
Proof. constructor; [exact impl_attach_ok|exact impl_detach_ok]. Qed.
