(** Search trees embedded in memory columns: representation, the external attach/detach
    contract, and the read-only walks that are in the repository. *)
From Coq Require Import NArith List Bool Lia Permutation Sorted.
From Verif Require Import Base.
Import ListNotations.
Open Scope N_scope.

(** The three tree fields of a link part for one tree
    (doublets/src/mem/unit/raw_link.rs:6-17, split/index_part.rs:6-17):
    left_as_X, right_as_X, size_as_X. *)
Record nd := mkNd { nl : N; nr : N; nz : N }.
Definition nd0 : nd := mkNd 0 0 0.

(** Ghost trees. *)
Inductive tree := E | T (l : tree) (i : N) (r : tree).

Fixpoint elems (t : tree) : list N :=
  match t with E => [] | T l i r => elems l ++ i :: elems r end.

Definition tsize (t : tree) : N := N.of_nat (length (elems t)).

Fixpoint height (t : tree) : nat :=
  match t with E => 0%nat | T l _ r => S (Nat.max (height l) (height r)) end.

(** [trep c root t]: starting at [root], column [c] holds exactly the tree [t] with
    correct subtree sizes. *)
Fixpoint trep (c : N -> nd) (root : N) (t : tree) : Prop :=
  match t with
  | E => root = 0
  | T l i r =>
      root = i /\ i <> 0 /\ nz (c i) = tsize t /\
      trep c (nl (c i)) l /\ trep c (nr (c i)) r
  end.

(** Keys are pairs compared lexicographically
    (first_is_to_the_left_of_second_4, sources_…tree.rs:229-238 and targets_…tree.rs). *)
Definition key := (N * N)%type.
Definition klt (a b : key) : bool :=
  (fst a <? fst b) || ((fst a =? fst b) && (snd a <? snd b)).

(** In-order sequence weakly sorted by key: a later element is never strictly to the left. *)
Definition wsorted (k : N -> key) (l : list N) : Prop :=
  StronglySorted (fun i j => klt (k j) (k i) = false) l.

(** No other element has the key of [x]. *)
Definition key_alone (k : N -> key) (x : N) (l : list N) : Prop :=
  forall j, In j l -> k j = k x -> j = x.

(** External crate [trees]: NoRecurSzbTree::attach / detach.  Arguments: the comparison key
    read from memory, the column, the root, the node; result: new column and root. *)
Record tree_ops := mkTreeOps {
  t_attach : (N -> key) -> (N -> nd) -> N -> N -> out ((N -> nd) * N);
  t_detach : (N -> key) -> (N -> nd) -> N -> N -> out ((N -> nd) * N)
}.

(** The contract assumed of it. *)
Record tree_ops_ok (o : tree_ops) : Prop := {
  attach_ok : forall k c root t x,
    trep c root t -> NoDup (elems t) -> wsorted k (elems t) ->
    x <> 0 -> ~ In x (elems t) -> c x = nd0 ->
    exists c' root' t',
      t_attach o k c root x = Val (c', root') /\
      trep c' root' t' /\ wsorted k (elems t') /\
      Permutation (elems t') (x :: elems t) /\
      (forall y, y <> x -> ~ In y (elems t) -> c' y = c y);
  detach_ok : forall k c root t x,
    trep c root t -> NoDup (elems t) -> wsorted k (elems t) ->
    key_alone k x (elems t) -> In x (elems t) ->
    exists c' root' t',
      t_detach o k c root x = Val (c', root') /\
      trep c' root' t' /\ wsorted k (elems t') /\
      Permutation (x :: elems t') (elems t) /\
      c' x = nd0 /\
      (forall y, ~ In y (elems t) -> c' y = c y)
}.

(** ** Read-only walks *)

(** SzbTree::get_left_or_default, get_right_or_default, get_size_or_zero, get_left_size,
    get_right_size (external crate [trees], provided methods over the accessors
    sources_…tree.rs:33-61; element 0 is "no node"). Access is by slice index. *)
Definition left_or_default (len : N) (c : N -> nd) (i : N) : out N :=
  if i =? 0 then Val 0 else let* n := rd len c i in Val (nl n).
Definition right_or_default (len : N) (c : N -> nd) (i : N) : out N :=
  if i =? 0 then Val 0 else let* n := rd len c i in Val (nr n).
Definition size_or_zero (len : N) (c : N -> nd) (i : N) : out N :=
  if i =? 0 then Val 0 else let* n := rd len c i in Val (nz n).
Definition left_size (len : N) (c : N -> nd) (i : N) : out N :=
  let* l := left_or_default len c i in size_or_zero len c l.
Definition right_size (len : N) (c : N -> nd) (i : N) : out N :=
  let* r := right_or_default len c i in size_or_zero len c r.

(** count_usages, first loop: unit sources_…tree.rs:132-143 (targets_…tree.rs same shape;
    split external_*_tree.rs same shape).  [base i] is get_base_part(i). *)
Fixpoint cu_right (fuel : nat) (tmax len : N) (c : N -> nd) (base : N -> N)
    (link root acc : N) : out N :=
  match fuel with
  | O => Diverge
  | S f =>
      if root =? 0 then Val acc
      else
        let* b := rd len base root in
        if b <=? link then
          let* r := right_or_default len c root in
          cu_right f tmax len c base link r acc
        else
          let* rs := right_size len c root in
          let* rs1 := cadd tmax rs 1 in
          let* acc' := cadd tmax acc rs1 in
          let* l := left_or_default len c root in
          cu_right f tmax len c base link l acc'
  end.

(** count_usages, second loop: sources_…tree.rs:144-154. *)
Fixpoint cu_left (fuel : nat) (tmax len : N) (c : N -> nd) (base : N -> N)
    (link root acc : N) : out N :=
  match fuel with
  | O => Diverge
  | S f =>
      if root =? 0 then Val acc
      else
        let* b := rd len base root in
        if link <=? b then
          let* l := left_or_default len c root in
          cu_left f tmax len c base link l acc
        else
          let* ls := left_size len c root in
          let* ls1 := cadd tmax ls 1 in
          let* acc' := cadd tmax acc ls1 in
          let* r := right_or_default len c root in
          cu_left f tmax len c base link r acc'
  end.

(** count_usages: sources_…tree.rs:130-157.  [get_size(root)] is read even for root 0. *)
Definition count_usages_tree (fuel : nat) (tmax len : N) (c : N -> nd) (base : N -> N)
    (root link : N) : out N :=
  let* n := rd len c root in
  let total := nz n in
  let* ri := cu_right fuel tmax len c base link root 0 in
  let* li := cu_left fuel tmax len c base link root 0 in
  let* x := csub total ri in
  csub x li.

(** search: sources_…tree.rs:159-181; comparison functions 229-249.
    [k] reads the key of a stored link, [q] is the sought key. *)
Fixpoint search_tree (fuel : nat) (len : N) (c : N -> nd) (k : N -> key)
    (q : key) (root : N) : out N :=
  match fuel with
  | O => Diverge
  | S f =>
      if root =? 0 then Val 0
      else
        let* kr := rd len k root in
        if klt q kr then
          let* l := left_or_default len c root in search_tree f len c k q l
        else if klt kr q then
          let* r := right_or_default len c root in search_tree f len c k q r
        else Val root
  end.

(** each_usages_core: sources_…tree.rs:105-127.  [lk i] is get_link_value(i). *)
Fixpoint each_usages_tree {H} (fuel : nat) (len : N) (c : N -> nd) (base : N -> N)
    (lk : N -> link) (b : N) (root : N) (h : rhandler H) (s : H) : out (H * flow) :=
  match fuel with
  | O => Diverge
  | S f =>
      if root =? 0 then Val (s, Continue)
      else
        let* lb := rd len base root in
        if b <? lb then
          let* l := left_or_default len c root in
          each_usages_tree f len c base lk b l h s
        else if lb <? b then
          let* r := right_or_default len c root in
          each_usages_tree f len c base lk b r h s
        else
          let* v := rd len lk root in
          match h s v with
          | (s1, Break) => Val (s1, Break)
          | (s1, Continue) =>
              let* l := left_or_default len c root in
              let* (s2, f2) := each_usages_tree f len c base lk b l h s1 in
              match f2 with
              | Break => Val (s2, Break)
              | Continue =>
                  let* r := right_or_default len c root in
                  each_usages_tree f len c base lk b r h s2
              end
          end
  end.

(** ** Facts about representations *)

Lemma tsize_T l i r : tsize (T l i r) = tsize l + 1 + tsize r.
Proof. unfold tsize; simpl. rewrite app_length; simpl. lia. Qed.

Lemma height_elems t : (height t <= length (elems t))%nat.
Proof. induction t; simpl; [lia|]. rewrite app_length; simpl. lia. Qed.

Lemma trep_root_in c root t : trep c root t -> root <> 0 -> In root (elems t).
Proof.
  destruct t; simpl; [congruence|]. intros (-> & _) _. apply in_or_app. right. now left.
Qed.

Lemma trep_nonzero c root t : trep c root t -> ~ In 0 (elems t).
Proof.
  revert root; induction t as [|l IHl i r IHr]; simpl; intros root H; [tauto|].
  destruct H as (-> & Hi & _ & Hl & Hr). rewrite in_app_iff. simpl.
  intros [K|[K|K]]; [eapply IHl; eauto|congruence|eapply IHr; eauto].
Qed.

Lemma trep_ext c c' root t :
  (forall i, In i (elems t) -> c' i = c i) -> trep c root t -> trep c' root t.
Proof.
  revert root; induction t as [|l IHl i r IHr]; simpl; intros root E H; [exact H|].
  destruct H as (-> & Hi & Hz & Hl & Hr).
  rewrite (E i) by (apply in_or_app; right; now left).
  repeat split; auto.
  - apply IHl; auto. intros; apply E; apply in_or_app; auto.
  - apply IHr; auto. intros; apply E; apply in_or_app; right; now right.
Qed.

Lemma trep_zero c t : trep c 0 t -> t = E.
Proof. destruct t; simpl; [auto|]. intros (H & H1 & _). congruence. Qed.

Lemma trep_size c root t i :
  trep c root t -> In i (elems t) -> nz (c i) <> 0.
Proof.
  revert root; induction t as [|l IHl j r IHr]; simpl; intros root H K; [tauto|].
  destruct H as (-> & Hi & Hz & Hl & Hr). rewrite in_app_iff in K.
  destruct K as [K|[K|K]]; [eapply IHl; eauto| |eapply IHr; eauto].
  subst j. rewrite Hz, tsize_T. lia.
Qed.

Lemma trep_root_size c root t :
  trep c root t -> root <> 0 -> nz (c root) = tsize t.
Proof. destruct t; simpl; [congruence|]. intros (-> & _ & H & _) _. exact H. Qed.

Lemma size_or_zero_rep len c root t :
  (forall i, In i (elems t) -> i < len) ->
  trep c root t -> size_or_zero len c root = Val (tsize t).
Proof.
  intros B H. unfold size_or_zero. destruct (N.eqb_spec root 0) as [->|E].
  - apply trep_zero in H. subst t. reflexivity.
  - rewrite rd_ok by (apply B; eapply trep_root_in; eauto). simpl.
    now rewrite (trep_root_size _ _ _ H E).
Qed.

Lemma left_or_default_T len c i : i <> 0 -> i < len -> left_or_default len c i = Val (nl (c i)).
Proof.
  intros H B. unfold left_or_default. destruct (N.eqb_spec i 0); [congruence|].
  now rewrite rd_ok.
Qed.
Lemma right_or_default_T len c i : i <> 0 -> i < len -> right_or_default len c i = Val (nr (c i)).
Proof.
  intros H B. unfold right_or_default. destruct (N.eqb_spec i 0); [congruence|].
  now rewrite rd_ok.
Qed.

Lemma in_elems_l i l j r : In i (elems l) -> In i (elems (T l j r)).
Proof. simpl; intros; apply in_or_app; auto. Qed.
Lemma in_elems_m l j r : In j (elems (T l j r)).
Proof. simpl; apply in_or_app; right; now left. Qed.
Lemma in_elems_r i l j r : In i (elems r) -> In i (elems (T l j r)).
Proof. simpl; intros; apply in_or_app; right; now right. Qed.

(** Sortedness by base part. *)
Definition bsorted (base : N -> N) (l : list N) : Prop :=
  StronglySorted (fun i j => base i <= base j) l.

Lemma SS_app A (R : A -> A -> Prop) l1 l2 :
  StronglySorted R (l1 ++ l2) <->
  StronglySorted R l1 /\ StronglySorted R l2 /\ (forall x y, In x l1 -> In y l2 -> R x y).
Proof.
  induction l1 as [|a l1 IH]; simpl.
  - split; [intros H; repeat split; auto; try constructor; intros ? ? []|tauto].
  - split.
    + intros H. inversion H as [|? ? H1 H2]; subst. apply IH in H1 as (K1 & K2 & K3).
      rewrite Forall_app in H2. destruct H2 as [F1 F2].
      repeat split; auto.
      * now constructor.
      * intros x y [->|Hx] Hy; [|now apply K3]. rewrite Forall_forall in F2. auto.
    + intros (H1 & H2 & H3). inversion H1 as [|? ? K1 K2]; subst. constructor.
      * apply IH. repeat split; auto.
      * apply Forall_app. split; auto. apply Forall_forall. intros; apply H3; auto.
Qed.

Lemma SS_T A (R : A -> A -> Prop) l1 x l2 :
  StronglySorted R (l1 ++ x :: l2) <->
  StronglySorted R l1 /\ StronglySorted R l2 /\
  (forall y, In y l1 -> R y x) /\ (forall y, In y l2 -> R x y) /\
  (forall y z, In y l1 -> In z l2 -> R y z).
Proof.
  rewrite SS_app. split.
  - intros (H1 & H2 & H3). inversion H2; subst. rewrite Forall_forall in *.
    repeat split; auto.
    + intros; apply H3; auto; now left.
    + intros; apply H3; auto; now right.
  - intros (H1 & H2 & H3 & H4 & H5). repeat split; auto.
    + constructor; auto. now apply Forall_forall.
    + intros y z Hy [<-|Hz]; auto.
Qed.

Lemma klt_false_fst a b : klt b a = false -> fst a <= fst b.
Proof.
  unfold klt. intros H. apply orb_false_iff in H as [H _]. apply N.ltb_ge in H. exact H.
Qed.

Lemma wsorted_bsorted k l : wsorted k l -> bsorted (fun i => fst (k i)) l.
Proof.
  unfold wsorted, bsorted. induction 1 as [|a l HS IH HF]; constructor; auto.
  eapply Forall_impl; [|exact HF]. intros b. apply klt_false_fst.
Qed.

Lemma klt_irrefl a : klt a a = false.
Proof. unfold klt. rewrite N.ltb_irrefl, N.ltb_irrefl, andb_false_r. reflexivity. Qed.

Lemma klt_trans a b c : klt a b = true -> klt b c = true -> klt a c = true.
Proof.
  destruct a as [a1 a2], b as [b1 b2], c as [c1 c2]; unfold klt; simpl.
  rewrite !orb_true_iff, !andb_true_iff, !N.ltb_lt, !N.eqb_eq. lia.
Qed.

Lemma klt_antisym a b : klt a b = false -> klt b a = false -> a = b.
Proof.
  destruct a as [a1 a2], b as [b1 b2]; unfold klt; simpl.
  rewrite !orb_false_iff, !andb_false_iff, !N.ltb_ge, !N.eqb_neq. intros H1 H2.
  f_equal; lia.
Qed.

Lemma klt_asym a b : klt a b = true -> klt b a = false.
Proof.
  intros H. destruct (klt b a) eqn:E; auto.
  rewrite <- (klt_irrefl a). symmetry. eapply klt_trans; eauto.
Qed.

Lemma klt_neg_trans a b c : klt b a = false -> klt c b = false -> klt c a = false.
Proof.
  destruct a as [a1 a2], b as [b1 b2], c as [c1 c2]; unfold klt; simpl.
  rewrite !orb_false_iff, !andb_false_iff, !N.ltb_ge, !N.eqb_neq. lia.
Qed.

(** ** Correctness of the walks on represented trees *)

Definition count_if (f : N -> bool) (l : list N) : N := N.of_nat (length (filter f l)).

Lemma count_if_app f l1 l2 : count_if f (l1 ++ l2) = count_if f l1 + count_if f l2.
Proof. unfold count_if. rewrite filter_app, app_length. lia. Qed.
Lemma count_if_cons f x l : count_if f (x :: l) = (if f x then 1 else 0) + count_if f l.
Proof. unfold count_if. cbn [filter]. destruct (f x); cbn [length]; lia. Qed.
Lemma count_if_all f l : (forall x, In x l -> f x = true) -> count_if f l = N.of_nat (length l).
Proof.
  induction l as [|a l IH]; intros H; [reflexivity|].
  rewrite count_if_cons, (H a) by now left. rewrite IH; [cbn [length]; lia|]. intros; apply H; now right.
Qed.
Lemma count_if_none f l : (forall x, In x l -> f x = false) -> count_if f l = 0.
Proof.
  induction l as [|a l IH]; intros H; [reflexivity|].
  rewrite count_if_cons, (H a) by now left. rewrite IH; [cbn [length]; lia|]. intros; apply H; now right.
Qed.
Lemma count_if_le f l : count_if f l <= N.of_nat (length l).
Proof. induction l as [|a l IH]; [reflexivity|]. rewrite count_if_cons. cbn [length]. destruct (f a); lia. Qed.

Lemma count_if_split base b l :
  count_if (fun i => base i <? b) l + count_if (fun i => base i =? b) l
  + count_if (fun i => b <? base i) l = N.of_nat (length l).
Proof.
  induction l as [|a l IH]; [reflexivity|]. rewrite !count_if_cons. cbn [length].
  destruct (N.ltb_spec (base a) b), (N.eqb_spec (base a) b), (N.ltb_spec b (base a)); lia.
Qed.

Section Walks.
  Variable tmax len : N.
  Variable c : N -> nd.
  Variable base : N -> N.

  Lemma right_size_T i l r :
    (forall j, In j (elems (T l i r)) -> j < len) ->
    trep c i (T l i r) -> right_size len c i = Val (tsize r).
  Proof.
    intros B (_ & Hi & _ & _ & Hr). unfold right_size.
    rewrite right_or_default_T; [simpl|exact Hi|apply B, in_elems_m].
    eapply size_or_zero_rep; eauto. intros; apply B; now apply in_elems_r.
  Qed.
  Lemma left_size_T i l r :
    (forall j, In j (elems (T l i r)) -> j < len) ->
    trep c i (T l i r) -> left_size len c i = Val (tsize l).
  Proof.
    intros B (_ & Hi & _ & Hl & _). unfold left_size.
    rewrite left_or_default_T; [simpl|exact Hi|apply B, in_elems_m].
    eapply size_or_zero_rep; eauto. intros; apply B; now apply in_elems_l.
  Qed.

  Lemma cu_right_ok link : forall t fuel root acc,
    trep c root t -> (forall i, In i (elems t) -> i < len) ->
    bsorted base (elems t) -> (height t < fuel)%nat ->
    acc + tsize t <= tmax ->
    cu_right fuel tmax len c base link root acc =
    Val (acc + count_if (fun i => link <? base i) (elems t)).
  Proof.
    induction t as [|l IHl i r IHr]; intros fuel root acc HR B HS HF HM;
      destruct fuel as [|fuel]; try lia; cbn [cu_right].
    - simpl in HR. subst root. simpl. f_equal. unfold count_if; simpl; lia.
    - pose proof HR as HR0. destruct HR as (-> & Hi & Hz & Hl & Hr).
      simpl in HS. apply SS_T in HS as (S1 & S2 & S3 & S4 & S5).
      destruct (N.eqb_spec i 0); [congruence|].
      rewrite rd_ok by (apply B, in_elems_m). cbn [obind].
      simpl in HF. rewrite tsize_T in HM.
      destruct (N.leb_spec (base i) link) as [Hle|Hgt].
      + rewrite right_or_default_T by (auto; apply B, in_elems_m). cbn [obind].
        rewrite IHr; auto; try lia.
        * f_equal. simpl. rewrite count_if_app, count_if_cons.
          rewrite (count_if_none _ (elems l)).
          -- destruct (N.ltb_spec link (base i)); lia.
          -- intros x Hx. specialize (S3 _ Hx). apply N.ltb_ge. lia.
        * intros; apply B, in_elems_r; auto.
      + erewrite right_size_T by eauto. cbn [obind].
        rewrite cadd_ok by lia. cbn [obind]. rewrite cadd_ok by lia. cbn [obind].
        rewrite left_or_default_T by (auto; apply B, in_elems_m). cbn [obind].
        rewrite IHl; auto; try lia.
        * f_equal. simpl. rewrite count_if_app, count_if_cons.
          rewrite (count_if_all _ (elems r)).
          -- destruct (N.ltb_spec link (base i)); unfold tsize; lia.
          -- intros x Hx. specialize (S4 _ Hx). apply N.ltb_lt. lia.
        * intros; apply B, in_elems_l; auto.
  Qed.

  Lemma cu_left_ok link : forall t fuel root acc,
    trep c root t -> (forall i, In i (elems t) -> i < len) ->
    bsorted base (elems t) -> (height t < fuel)%nat ->
    acc + tsize t <= tmax ->
    cu_left fuel tmax len c base link root acc =
    Val (acc + count_if (fun i => base i <? link) (elems t)).
  Proof.
    induction t as [|l IHl i r IHr]; intros fuel root acc HR B HS HF HM;
      destruct fuel as [|fuel]; try lia; cbn [cu_left].
    - simpl in HR. subst root. simpl. f_equal. unfold count_if; simpl; lia.
    - pose proof HR as HR0. destruct HR as (-> & Hi & Hz & Hl & Hr).
      simpl in HS. apply SS_T in HS as (S1 & S2 & S3 & S4 & S5).
      destruct (N.eqb_spec i 0); [congruence|].
      rewrite rd_ok by (apply B, in_elems_m). cbn [obind].
      simpl in HF. rewrite tsize_T in HM.
      destruct (N.leb_spec link (base i)) as [Hle|Hgt].
      + rewrite left_or_default_T by (auto; apply B, in_elems_m). cbn [obind].
        rewrite IHl; auto; try lia.
        * f_equal. simpl. rewrite count_if_app, count_if_cons.
          rewrite (count_if_none _ (elems r)).
          -- destruct (N.ltb_spec (base i) link); lia.
          -- intros x Hx. specialize (S4 _ Hx). apply N.ltb_ge. lia.
        * intros; apply B, in_elems_l; auto.
      + erewrite left_size_T by eauto. cbn [obind].
        rewrite cadd_ok by lia. cbn [obind]. rewrite cadd_ok by lia. cbn [obind].
        rewrite right_or_default_T by (auto; apply B, in_elems_m). cbn [obind].
        rewrite IHr; auto; try lia.
        * f_equal. simpl. rewrite count_if_app, count_if_cons.
          rewrite (count_if_all _ (elems l)).
          -- destruct (N.ltb_spec (base i) link); unfold tsize; lia.
          -- intros x Hx. specialize (S3 _ Hx). apply N.ltb_lt. lia.
        * intros; apply B, in_elems_r; auto.
  Qed.

  (** count_usages counts the elements with that base part. For the empty tree the
      value is right only if slot 0 has size field 0. *)
  Lemma count_usages_tree_ok link t fuel root :
    trep c root t -> (forall i, In i (elems t) -> i < len) ->
    bsorted base (elems t) -> (height t < fuel)%nat -> 0 < len ->
    tsize t <= tmax -> (root = 0 -> nz (c 0) = 0) ->
    count_usages_tree fuel tmax len c base root link =
    Val (count_if (fun i => base i =? link) (elems t)).
  Proof.
    intros HR B HS HF HL HM H0. unfold count_usages_tree.
    assert (Hlen : root < len).
    { destruct (N.eq_dec root 0) as [->|E]; [exact HL|].
      apply B. eapply trep_root_in; eauto. }
    rewrite rd_ok by exact Hlen. cbn [obind].
    assert (Ht : nz (c root) = tsize t).
    { destruct (N.eq_dec root 0) as [->|E].
      - rewrite H0 by auto. apply trep_zero in HR. subst; reflexivity.
      - eapply trep_root_size; eauto. }
    rewrite Ht.
    erewrite cu_right_ok by (eauto; lia). cbn [obind].
    erewrite cu_left_ok by (eauto; lia). cbn [obind].
    pose proof (count_if_split base link (elems t)) as K. unfold tsize in *.
    rewrite csub_ok by lia. cbn [obind]. rewrite csub_ok by lia. f_equal. lia.
  Qed.

  Lemma search_tree_ok (k : N -> key) q : forall t fuel root,
    trep c root t -> (forall i, In i (elems t) -> i < len) ->
    wsorted k (elems t) -> (height t < fuel)%nat ->
    exists r, search_tree fuel len c k q root = Val r /\
      ((r = 0 /\ forall i, In i (elems t) -> k i <> q) \/ (In r (elems t) /\ k r = q)).
  Proof.
    induction t as [|l IHl i r IHr]; intros fuel root HR B HS HF;
      destruct fuel as [|fuel]; try lia; cbn [search_tree].
    - simpl in HR. subst root. exists 0. split; [reflexivity|left; split; auto].
    - destruct HR as (-> & Hi & Hz & Hl & Hr).
      simpl in HS. apply SS_T in HS as (S1 & S2 & S3 & S4 & S5).
      destruct (N.eqb_spec i 0); [congruence|].
      rewrite rd_ok by (apply B, in_elems_m). cbn [obind]. simpl in HF.
      destruct (klt q (k i)) eqn:E1; [|destruct (klt (k i) q) eqn:E2].
      + rewrite left_or_default_T by (auto; apply B, in_elems_m). cbn [obind].
        destruct (IHl fuel (nl (c i))) as (x & Hx & HP); auto; try lia.
        { intros; apply B, in_elems_l; auto. }
        exists x. split; [exact Hx|]. destruct HP as [[-> HP]|[HP1 HP2]]; [left|right].
        * split; auto. simpl. intros j. rewrite in_app_iff. simpl.
          intros [Hj|[<-|Hj]] K; [eapply HP; eauto| |].
          -- rewrite K, klt_irrefl in E1. discriminate.
          -- specialize (S4 _ Hj). rewrite K in S4. congruence.
        * split; auto. now apply in_elems_l.
      + rewrite right_or_default_T by (auto; apply B, in_elems_m). cbn [obind].
        destruct (IHr fuel (nr (c i))) as (x & Hx & HP); auto; try lia.
        { intros; apply B, in_elems_r; auto. }
        exists x. split; [exact Hx|]. destruct HP as [[-> HP]|[HP1 HP2]]; [left|right].
        * split; auto. simpl. intros j. rewrite in_app_iff. simpl.
          intros [Hj|[<-|Hj]] K; [| |eapply HP; eauto].
          -- specialize (S3 _ Hj). rewrite K in S3. congruence.
          -- rewrite K, klt_irrefl in E2. discriminate.
        * split; auto. now apply in_elems_r.
      + exists i. split; [reflexivity|right]. split; [apply in_elems_m|].
        symmetry. now apply klt_antisym.
  Qed.

  (** The list of elements each_usages visits, in order (ghost). *)
  Fixpoint usages_order (b : N) (t : tree) : list N :=
    match t with
    | E => []
    | T l i r =>
        if b <? base i then usages_order b l
        else if base i <? b then usages_order b r
        else i :: usages_order b l ++ usages_order b r
    end.

  Lemma usages_order_perm b t :
    bsorted base (elems t) ->
    Permutation (usages_order b t) (filter (fun i => base i =? b) (elems t)).
  Proof.
    induction t as [|l IHl i r IHr]; cbn [elems usages_order]; intros HS; [constructor|].
    apply SS_T in HS as (S1 & S2 & S3 & S4 & S5).
    rewrite filter_app. cbn [filter].
    assert (FN : forall L, (forall x, In x L -> base x <> b) -> filter (fun i => base i =? b) L = []).
    { induction L as [|a L IH]; intros HN; [reflexivity|]. simpl.
      destruct (N.eqb_spec (base a) b) as [K|K]; [exfalso; eapply HN; [now left|exact K]|].
      apply IH; intros; apply HN; now right. }
    destruct (N.ltb_spec b (base i)) as [H1|H1].
    - destruct (N.eqb_spec (base i) b); [lia|]. rewrite (FN (elems r)).
      + rewrite app_nil_r. auto.
      + intros x Hx. specialize (S4 _ Hx). simpl in S4. lia.
    - destruct (N.ltb_spec (base i) b) as [H2|H2].
      + destruct (N.eqb_spec (base i) b); [lia|]. rewrite (FN (elems l)).
        * simpl. auto.
        * intros x Hx. specialize (S3 _ Hx). simpl in S3. lia.
      + destruct (N.eqb_spec (base i) b); [|lia].
        etransitivity; [|apply Permutation_middle]. constructor.
        now apply Permutation_app; auto.
  Qed.

  Lemma each_usages_tree_ok {H} (lk : N -> link) b (h : rhandler H) : forall t fuel root s,
    trep c root t -> (forall i, In i (elems t) -> i < len) -> (height t < fuel)%nat ->
    each_usages_tree fuel len c base lk b root h s =
    Val (run_handler h (map lk (usages_order b t)) s).
  Proof.
    induction t as [|l IHl i r IHr]; intros fuel root s HR B HF;
      destruct fuel as [|fuel]; try lia; cbn [each_usages_tree].
    - simpl in HR. subst root. reflexivity.
    - destruct HR as (-> & Hi & Hz & Hl & Hr).
      assert (Bl : forall j, In j (elems l) -> j < len) by (intros; apply B, in_elems_l; auto).
      assert (Br : forall j, In j (elems r) -> j < len) by (intros; apply B, in_elems_r; auto).
      pose proof (B i (in_elems_m l i r)) as Bi.
      destruct (N.eqb_spec i 0); [congruence|].
      rewrite rd_ok by exact Bi. cbn [obind usages_order]. simpl in HF.
      destruct (b <? base i).
      + rewrite left_or_default_T by auto. cbn [obind]. apply IHl; auto; lia.
      + destruct (base i <? b).
        * rewrite right_or_default_T by auto. cbn [obind]. apply IHr; auto; lia.
        * rewrite rd_ok by exact Bi. cbn [obind map run_handler].
          destruct (h s (lk i)) as [s1 []]; [|reflexivity].
          rewrite left_or_default_T by auto. cbn [obind].
          rewrite IHl by (auto; lia). cbn [obind]. rewrite map_app, run_handler_app.
          destruct (run_handler h (map lk (usages_order b l)) s1) as [s2 []]; [|reflexivity].
          rewrite right_or_default_T by auto. cbn [obind]. apply IHr; auto; lia.
  Qed.
End Walks.
