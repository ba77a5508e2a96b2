(** Abstract specification of a link store, independent of the memory layout.

    A store is a finite map from index to (source, target), together with the highest index
    in use and the stack of holes below it (most recently deleted first). *)
From Coq Require Import NArith List Bool Lia Permutation.
From Verif Require Import Base.
Import ListNotations.
Open Scope N_scope.

Record astate := mkA {
  a_top : N;
  a_free : list N;
  a_map : N -> option (N * N)
}.

Definition a_empty : astate := mkA 0 [] (fun _ => None).

(** Well-formedness: the map is defined exactly on 1..top without holes, and the top
    index itself is in use. *)
Record awf (a : astate) : Prop := {
  wf_dom : forall i, a_map a i <> None <-> (1 <= i <= a_top a /\ ~ In i (a_free a));
  wf_free : forall i, In i (a_free a) -> 1 <= i <= a_top a;
  wf_nodup : NoDup (a_free a);
  wf_top : a_top a = 0 \/ a_map a (a_top a) <> None
}.

(** The index the next create returns. *)
Definition a_next (a : astate) : N :=
  match a_free a with x :: _ => x | [] => a_top a + 1 end.

Definition a_create (a : astate) : astate :=
  match a_free a with
  | x :: fl => mkA (a_top a) fl (upd (a_map a) x (Some (0, 0)))
  | [] => mkA (a_top a + 1) [] (upd (a_map a) (a_top a + 1) (Some (0, 0)))
  end.

Definition a_update (a : astate) (i s t : N) : astate :=
  mkA (a_top a) (a_free a) (upd (a_map a) i (Some (s, t))).

(** Highest index not above [n] that is in the map. *)
Fixpoint top_of (m : N -> option (N * N)) (n : nat) : N :=
  match n with
  | O => 0
  | S k => match m (N.of_nat n) with Some _ => N.of_nat n | None => top_of m k end
  end.

Definition a_delete (a : astate) (i : N) : astate :=
  let m := upd (a_map a) i None in
  if i <? a_top a then mkA (a_top a) (i :: a_free a) m
  else
    let top := top_of m (N.to_nat (a_top a)) in
    mkA top (filter (fun x => x <? top) (a_free a)) m.

(** No two links have the same pair, except for the empty pair. *)
Definition adistinct (a : astate) : Prop :=
  forall i j p, a_map a i = Some p -> a_map a j = Some p -> p <> (0, 0) -> i = j.

(** No other link has the pair of [i]. *)
Definition alone (a : astate) (i : N) : Prop :=
  forall j p, a_map a i = Some p -> a_map a j = Some p -> j = i.

(** A link may be changed or removed if it is still empty or no other link has its pair. *)
Definition detachable (a : astate) (i : N) : Prop :=
  a_map a i = Some (0, 0) \/ alone a i.

Lemma adistinct_detachable a i : adistinct a -> detachable a i.
Proof.
  intros D. destruct (a_map a i) as [p|] eqn:E; [|right; intros j q E'; congruence].
  destruct (N.eq_dec (fst p) 0) as [F|F]; [destruct (N.eq_dec (snd p) 0) as [G|G]|].
  - left. destruct p; cbn in *; congruence.
  - right. intros j q E1 E2. apply (D j i q); auto. intros ->. rewrite E in E1. injection E1 as ->. auto.
  - right. intros j q E1 E2. apply (D j i q); auto. intros ->. rewrite E in E1. injection E1 as ->. auto.
Qed.

(** All links in ascending index order. *)
Definition alinks (a : astate) : list link :=
  flat_map (fun i => match a_map a i with Some (s, t) => [mkLink i s t] | None => [] end)
           (range1 (a_top a)).

(** The links a query makes the store visit, as a list up to order; [any] is the
    wildcard constant.  For [[any; v]] a link v->v is listed twice.  With a wildcard index, a
    null source (or a null target next to a wildcard source) never matches. *)
Definition avisits (any : N) (q : list N) (a : astate) : list link :=
  let L := alinks a in
  match q with
  | [] => L
  | [i] => if i =? any then L else filter (fun l => l_index l =? i) L
  | [i; v] =>
      if i =? any then
        if v =? any then L
        else if v =? 0 then []
        else filter (fun l => l_source l =? v) L ++ filter (fun l => l_target l =? v) L
      else filter (fun l => (l_index l =? i) &&
                            ((v =? any) || (l_source l =? v) || (l_target l =? v))) L
  | [i; s; t] =>
      if i =? any then
        if (s =? any) && (t =? any) then L
        else if s =? any then
          if t =? 0 then [] else filter (fun l => l_target l =? t) L
        else if s =? 0 then []
        else if t =? any then filter (fun l => l_source l =? s) L
        else filter (fun l => (l_source l =? s) && (l_target l =? t)) L
      else filter (fun l => (l_index l =? i) && ((s =? any) || (l_source l =? s))
                                             && ((t =? any) || (l_target l =? t))) L
  | _ => []
  end.

Definition is_search (any : N) (q : list N) : bool :=
  match q with
  | [i; s; t] => (i =? any) && negb (s =? any) && negb (t =? any)
  | _ => false
  end.

(** The answer of get_link. *)
Definition olink (i : N) (o : option (N * N)) : option link :=
  match o with Some (s, t) => Some (mkLink i s t) | None => None end.

(** Queries for everything. *)
Definition is_all (any : N) (q : list N) : bool :=
  match q with
  | [] => true
  | [i] => i =? any
  | [i; v] => (i =? any) && (v =? any)
  | [i; s; t] => (i =? any) && (s =? any) && (t =? any)
  | _ => false
  end.

(** Queries [[any; v]]. *)
Definition is_either (any : N) (q : list N) : option N :=
  match q with
  | [i; v] => if (i =? any) && negb (v =? any) then Some v else None
  | _ => None
  end.

(** What it means for a list to be a correct sequence of visits: a permutation of the
    matching links, in ascending index order for a query for everything; an exact pair
    search visits one of them only; [[any; v]] visits first the links with source v,
    then those with target v. *)
Definition visits_ok (any : N) (q : list N) (a : astate) (L : list link) : Prop :=
  if is_search any q then
    (L = [] /\ avisits any q a = []) \/ (exists l, L = [l] /\ In l (avisits any q a))
  else
    Permutation L (avisits any q a) /\
    (is_all any q = true -> L = alinks a) /\
    (forall v, is_either any q = Some v -> v <> 0 ->
       exists L1 L2, L = L1 ++ L2 /\
         Permutation L1 (filter (fun l => l_source l =? v) (alinks a)) /\
         Permutation L2 (filter (fun l => l_target l =? v) (alinks a))).

(** ** Basic facts *)
Lemma in_alinks a i s t :
  awf a -> (In (mkLink i s t) (alinks a) <-> a_map a i = Some (s, t)).
Proof.
  intros W. unfold alinks. rewrite in_flat_map. split.
  - intros (j & _ & H). destruct (a_map a j) as [[s' t']|] eqn:E; simpl in H; [|tauto].
    destruct H as [H|[]]. inversion H; subst. exact E.
  - intros H. exists i. rewrite H. split; [|now left].
    apply in_range1. apply (wf_dom _ W). congruence.
Qed.

Lemma in_alinks' a l :
  awf a -> (In l (alinks a) <-> a_map a (l_index l) = Some (l_source l, l_target l)).
Proof. intros W. destruct l as [i s t]. now apply in_alinks. Qed.

Lemma nodup_alinks_gen m l : NoDup l ->
  NoDup (map l_index (flat_map (fun i => match m i with Some (s, t) => [mkLink i s t] | None => [] end) l)).
Proof.
  induction l as [|i l IH]; simpl; intros ND; [constructor|]. inversion ND; subst.
  destruct (m i) as [[s t]|]; simpl; auto. constructor; auto.
  rewrite in_map_iff. intros (x & E & K). apply in_flat_map in K as (j & Hj & K).
  destruct (m j) as [[s' t']|]; simpl in K; [|tauto]. destruct K as [<-|[]]. simpl in E. congruence.
Qed.

Lemma nodup_alinks_idx a : NoDup (map l_index (alinks a)).
Proof. apply nodup_alinks_gen, nodup_range1. Qed.

Lemma nodup_alinks a : NoDup (alinks a).
Proof. eapply NoDup_map_inv, nodup_alinks_idx. Qed.

Lemma awf_empty : awf a_empty.
Proof.
  constructor; simpl.
  - intros i. split; [congruence|]. intros [K _]. lia.
  - tauto.
  - constructor.
  - now left.
Qed.

Lemma awf_none a i : awf a -> (~ (1 <= i <= a_top a) \/ In i (a_free a)) -> a_map a i = None.
Proof.
  intros W H. destruct (a_map a i) eqn:E; auto. exfalso.
  assert (K : a_map a i <> None) by congruence. apply (wf_dom _ W) in K. tauto.
Qed.

Lemma awf_some a i p : awf a -> a_map a i = Some p -> 1 <= i <= a_top a /\ ~ In i (a_free a).
Proof. intros W H. apply (wf_dom _ W). congruence. Qed.

Lemma top_of_le m n : top_of m n <= N.of_nat n.
Proof.
  induction n as [|n IH]; cbn [top_of]; [lia|].
  destruct (m (N.of_nat (S n))); lia.
Qed.

Lemma top_of_some m n : top_of m n = 0 \/ m (top_of m n) <> None.
Proof.
  induction n as [|n IH]; [now left|]. cbn [top_of].
  destruct (m (N.of_nat (S n))) eqn:E; [right; congruence|exact IH].
Qed.

Lemma top_of_above m n i : top_of m n < i -> i <= N.of_nat n -> m i = None.
Proof.
  induction n as [|n IH]; intros H1 H2; [lia|]. cbn [top_of] in H1.
  destruct (m (N.of_nat (S n))) eqn:E; [lia|].
  destruct (N.eq_dec i (N.of_nat (S n))) as [->|]; auto. apply IH; auto. lia.
Qed.

Lemma upd_none_iff (m : N -> option (N * N)) i j v :
  v <> None -> (upd m i v j <> None <-> j = i \/ m j <> None).
Proof.
  intros H. unfold upd. destruct (N.eqb_spec j i); split; auto. intros [K|K]; congruence.
Qed.

Lemma a_next_fresh a : awf a -> a_map a (a_next a) = None.
Proof.
  intros W. unfold a_next. destruct (a_free a) as [|x fl] eqn:E; apply awf_none; auto; [left; lia|].
  right. rewrite E. now left.
Qed.

Lemma a_next_pos a : awf a -> 1 <= a_next a.
Proof.
  intros W. unfold a_next. destruct (a_free a) as [|x fl] eqn:E; [lia|].
  apply (wf_free _ W). rewrite E. now left.
Qed.

Lemma a_create_map a : awf a -> a_map (a_create a) = upd (a_map a) (a_next a) (Some (0, 0)).
Proof. intros W. unfold a_create, a_next. destruct (a_free a); reflexivity. Qed.

Lemma awf_create a : awf a -> awf (a_create a).
Proof.
  intros W. unfold a_create. destruct (a_free a) as [|x fl] eqn:E.
  - constructor; simpl.
    + intros i. rewrite upd_none_iff by discriminate. rewrite (wf_dom _ W), E. simpl. lia.
    + tauto.
    + constructor.
    + right. rewrite upd_same. discriminate.
  - pose proof (wf_nodup _ W) as ND. rewrite E in ND. inversion ND; subst.
    assert (X : 1 <= x <= a_top a) by (apply (wf_free _ W); rewrite E; now left).
    constructor; simpl.
    + intros i. rewrite upd_none_iff by discriminate. rewrite (wf_dom _ W), E. simpl. split.
      * intros [->|[K1 K2]]; [auto|tauto].
      * intros [K1 K2]. destruct (N.eq_dec i x); [auto|right]. split; auto. intros [?|?]; congruence.
    + intros i Hi. apply (wf_free _ W). rewrite E. now right.
    + auto.
    + destruct (wf_top _ W) as [K|K]; [lia|]. right. rewrite upd_none_iff by discriminate. auto.
Qed.

Lemma awf_update a i s t : awf a -> a_map a i <> None -> awf (a_update a i s t).
Proof.
  intros W Hi. constructor; simpl; try apply W.
  - intros j. rewrite upd_none_iff by discriminate. rewrite <- (wf_dom _ W).
    split; [intros [->|]; auto|auto].
  - destruct (wf_top _ W) as [K|K]; [auto|]. right. rewrite upd_none_iff by discriminate. auto.
Qed.

Lemma upd_none_none (m : N -> option (N * N)) i j :
  upd m i None j <> None <-> j <> i /\ m j <> None.
Proof. unfold upd. destruct (N.eqb_spec j i); split; try tauto; congruence. Qed.

Lemma awf_delete a i : awf a -> a_map a i <> None -> awf (a_delete a i).
Proof.
  intros W Hi. pose proof (proj1 (wf_dom _ W i) Hi) as [B NF].
  unfold a_delete. destruct (N.ltb_spec i (a_top a)) as [L|L].
  - constructor; simpl.
    + intros j. rewrite upd_none_none, (wf_dom _ W). split.
      * intros [K1 [K2 K3]]. split; auto. intros [?|?]; [congruence|tauto].
      * intros [K1 K2]. repeat split; try tauto; intuition.
    + intros j [<-|K]; [auto|now apply (wf_free _ W)].
    + constructor; auto. apply W.
    + right. rewrite upd_none_none. split; [lia|]. destruct (wf_top _ W); [lia|auto].
  - assert (i = a_top a) by lia. subst i. clear L B.
    set (m := upd (a_map a) (a_top a) None). set (top := top_of m (N.to_nat (a_top a))).
    assert (TL : top <= a_top a) by (pose proof (top_of_le m (N.to_nat (a_top a))); unfold top; lia).
    assert (TN : top = 0 \/ m top <> None) by apply top_of_some.
    assert (TNF : ~ In top (a_free a)).
    { intros K. destruct TN as [T0|TN].
      - apply (wf_free _ W) in K. lia.
      - unfold m in TN. rewrite upd_none_none, (wf_dom _ W) in TN. tauto. }
    constructor; simpl.
    + intros j. rewrite filter_In. split.
      * intros K. assert (K' := K). unfold m in K'. rewrite upd_none_none, (wf_dom _ W) in K'.
        assert (j <= top).
        { destruct (N.le_gt_cases j top); auto. exfalso. apply K. unfold m.
          eapply top_of_above; eauto. lia. }
        split; [lia|tauto].
      * intros [K1 K2]. unfold m. rewrite upd_none_none, (wf_dom _ W).
        assert (NT : j <> a_top a).
        { intros ->. assert (top = a_top a) by lia. destruct TN as [T0|TN]; [lia|].
          rewrite H in TN. unfold m in TN. rewrite upd_same in TN. congruence. }
        split; auto. split; [lia|]. intros K. apply K2. split; auto.
        apply N.ltb_lt. assert (j <> top) by congruence. lia.
    + intros j K. apply filter_In in K as [K1 K2]. apply N.ltb_lt in K2.
      apply (wf_free _ W) in K1. lia.
    + apply NoDup_filter, W.
    + exact TN.
Qed.

Lemma a_delete_map a i : a_map (a_delete a i) = upd (a_map a) i None.
Proof. unfold a_delete. destruct (i <? a_top a); reflexivity. Qed.
