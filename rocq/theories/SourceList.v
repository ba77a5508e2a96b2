(** Model of doublets/src/mem/split/generic/internal_sources_linked_list.rs: the usages of a
    source as a circular list (an alternative to the internal sources tree, used by the
    branches of split/store.rs that USE_LIST = false switches off), and its properties. *)
From Coq Require Import PeanoNat NArith List Bool Lia.
From Verif Require Import Base Trees Lists Iface UnitModel SplitModel Obs TreeImpl UnitHist SplitHist.
Import ListNotations.
Open Scope N_scope.

(** get_index_part, internal_sources_linked_list.rs:53-55; the two fields groups it is read for. *)
Definition sl_index (st : sst) (i : N) : out nd := rd (s_ilen st) (s_is st) i.
Definition sl_root (st : sst) (i : N) : out N := rd (s_ilen st) (s_rs st) i.
(** get_mut_index_part, 57-59 *)
Definition sl_put_index (st : sst) (i : N) (f : nd -> nd) : out sst :=
  let* n := sl_index st i in Val (s_set_src st (s_rs st) (upd (s_is st) i (f n))).

(** RelativeLinkedList, 88-126 *)
Definition sl_first (st : sst) (head : N) : out N := sl_root st head.
(** LinkedList, 128-144 *)
Definition sl_previous (st : sst) (x : N) : out N := let* n := sl_index st x in Val (nl n).
Definition sl_next (st : sst) (x : N) : out N := let* n := sl_index st x in Val (nr n).
Definition sl_last (st : sst) (head : N) : out N :=
  let* first := sl_first st head in if first =? 0 then Val first else sl_previous st first.
Definition sl_size (st : sst) (head : N) : out N := let* n := sl_index st head in Val (nz n).
Definition sl_set_first (st : sst) (head x : N) : out sst :=
  let* _ := sl_root st head in Val (s_set_src st (upd (s_rs st) head x) (s_is st)).
Definition sl_set_last (st : sst) (head x : N) : out sst := Val st.
Definition sl_set_size (st : sst) (head z : N) : out sst := sl_put_index st head (fun n => mkNd (nl n) (nr n) z).
Definition sl_set_previous (st : sst) (x p : N) : out sst := sl_put_index st x (fun n => mkNd p (nr n) (nz n)).
Definition sl_set_next (st : sst) (x p : N) : out sst := sl_put_index st x (fun n => mkNd (nl n) p (nz n)).

(** get_link_value, 61-64 *)
Definition sl_link_value (st : sst) (i : N) : out link :=
  let* d := s_get_data st i in Val (mkLink i (fst d) (snd d)).

(** count_usages, 66-68 *)
Definition sl_count_usages (st : sst) (head : N) : out N := sl_size st head.

(** each_usages, 70-85 *)
Fixpoint sl_walk {H} (fuel : nat) (st : sst) (first cur : N) (h : rhandler H) (x : H) : out (H * flow) :=
  match fuel with
  | O => Diverge
  | S f =>
      if cur =? 0 then Val (x, Continue)
      else
        let* v := sl_link_value st cur in
        match h x v with
        | (x', Break) => Val (x', Break)
        | (x', Continue) =>
            let* n := sl_next st cur in
            if n =? first then Val (x', Continue) else sl_walk f st first n h x'
        end
  end.
Definition sl_each_usages {H} (fuel : nat) (st : sst) (source : N) (h : rhandler H) (x : H) : out (H * flow) :=
  let* first := sl_first st source in sl_walk fuel st first first h x.

(** External crate [trees]: the default methods attach_as_first and detach of
    RelativeCircularLinkedList, written as those of the absolute list (Lists.v) on the list
    of one head.  They write through the setters above: the last element of the header is
    dropped, because set_last does nothing. *)
Definition sl_hdr (st : sst) (head : N) : lhdr :=
  let first := s_rs st head in
  mkLhdr first (if first =? 0 then 0 else nl (s_is st first)) (nz (s_is st head)).
Definition sl_ends (st : sst) (x : N) : N * N := (nl (s_is st x), nr (s_is st x)).
Definition sl_write (st : sst) (head : N) (h : lhdr) (d : N -> N * N) : sst :=
  s_set_src st (upd (s_rs st) head (lfirst h))
    (fun x => mkNd (fst (d x)) (snd (d x)) (if x =? head then lcount h else nz (s_is st x))).
Section Ops.
  Variable lops : list_ops.
  Definition sl_attach (st : sst) (head x : N) : out sst :=
    let* _ := sl_index st head in
    let* _ := sl_index st x in
    let* (h, d) := l_attach lops (sl_hdr st head) (sl_ends st) x in
    Val (sl_write st head h d).
  Definition sl_detach (st : sst) (head x : N) : out sst :=
    let* _ := sl_index st head in
    let* _ := sl_index st x in
    let* (h, d) := l_detach lops (sl_hdr st head) (sl_ends st) x in
    Val (sl_write st head h d).
End Ops.

(** ** The lists a memory holds *)

(** The fields of the members point from each to the next and back, the head points to the
    first and knows the number. *)
Definition holds (st : sst) (head : N) (l : list N) : Prop :=
  NoDup l /\ s_rs st head = hd 0 l /\ nz (s_is st head) = N.of_nat (length l) /\
  forall k x, nth_error l k = Some x ->
    nr (s_is st x) = nth (S k) l (hd 0 l) /\
    nl (s_is st x) = match k with O => last l 0 | S k' => nth k' l 0 end.
(** [L i] is the list of head [i], for every cell but the header; no cell is in two lists,
    and every member has its data. *)
Definition lists (st : sst) (L : N -> list N) : Prop :=
  s_dlen st = s_dcap st /\
  (forall i, 1 <= i -> i < s_ilen st -> holds st i (L i)) /\
  (forall i x, 1 <= i -> i < s_ilen st -> In x (L i) -> 1 <= x /\ x < s_ilen st /\ x < s_dlen st) /\
  (forall i j x, 1 <= i -> i < s_ilen st -> 1 <= j -> j < s_ilen st -> In x (L i) -> In x (L j) -> i = j).

Lemma seg_nth d : forall l p n, seg d p l n <->
  forall k x, nth_error l k = Some x -> d x = (match k with O => p | S k' => nth k' l 0 end, nth (S k) l n).
Proof.
  induction l as [|a l IH]; intros p n; cbn [seg].
  - split; [|auto]. intros _ [|k] x; discriminate.
  - rewrite IH. split.
    + intros [H1 H2] [|k] x E; cbn in E.
      * injection E as <-. rewrite H1. destruct l; reflexivity.
      * rewrite (H2 _ _ E). destruct k; reflexivity.
    + intros H. split.
      * rewrite (H 0%nat a eq_refl). destruct l; reflexivity.
      * intros k x E. rewrite (H (S k) x E). destruct k; reflexivity.
Qed.

Lemma holds_lrep st head l : ~ In 0 l -> (holds st head l <-> lrep (sl_hdr st head) (sl_ends st) l).
Proof.
  intros NZ. unfold holds, lrep, sl_hdr. cbn [lfirst llast lcount]. rewrite seg_nth. unfold sl_ends.
  split.
  - intros (ND & F & C & K). repeat (split; auto).
    + rewrite F. destruct l as [|a l]; [reflexivity|]. cbn [hd].
      destruct (N.eqb_spec a 0) as [->|A0]; [exfalso; apply NZ; now left|]. now destruct (K 0%nat a eq_refl).
    + intros k x E. destruct (K k x E) as [K1 K2]. now rewrite K1, K2.
  - intros (ND & _ & F & _ & C & K). repeat (split; auto); specialize (K _ _ H); congruence.
Qed.

Section Walk.
  Variable st : sst.
  Hypothesis V : s_dlen st = s_dcap st.

  Lemma sl_link_value_ok x : x < s_dlen st -> sl_link_value st x = Val (link_of (s_data st) x).
  Proof.
    intros X. unfold sl_link_value, s_get_data, s_view, rd. rewrite V, N.eqb_refl. cbn [obind].
    rewrite <- V. destruct (N.ltb_spec x (s_dlen st)); [reflexivity|lia].
  Qed.

  Lemma sl_walk_ok H (h : rhandler H) first : forall l fuel p x,
    ~ In 0 l -> ~ In first (tl l) -> (forall y, In y l -> y < s_ilen st /\ y < s_dlen st) -> l <> [] ->
    seg (sl_ends st) p l first -> (length l <= fuel)%nat ->
    sl_walk fuel st first (hd 0 l) h x = Val (run_handler h (map (link_of (s_data st)) l) x).
  Proof.
    induction l as [|a l IH]; intros fuel p x NZ NF IN NE SG LT; [congruence|]. destruct SG as [E SG].
    destruct fuel as [|fuel]; [cbn in LT; lia|]. cbn [hd sl_walk map run_handler].
    destruct (N.eqb_spec a 0) as [->|A0]; [exfalso; apply NZ; now left|].
    destruct (IN a (or_introl eq_refl)) as [A1 A2]. rewrite (sl_link_value_ok _ A2). cbn [obind].
    destruct (h x (link_of (s_data st) a)) as [x' []]; [|reflexivity].
    unfold sl_next, sl_index, rd. destruct (N.ltb_spec a (s_ilen st)); [|lia]. cbn [obind].
    injection E as E1 E2. rewrite E2. destruct l as [|b l]; cbn [hd].
    - rewrite N.eqb_refl. reflexivity.
    - destruct (N.eqb_spec b first) as [->|BF]; [exfalso; apply NF; now left|].
      change b with (hd 0 (b :: l)). apply IH with (p := a); auto.
      + intros K. apply NZ. now right.
      + intros K. apply NF. now right.
      + intros y K. apply IN. now right.
      + discriminate.
      + cbn [length] in *. lia.
  Qed.
End Walk.

(** * C64 *)
(** The members of the list of a head are visited once each, in order; the walk needs no more
    rounds than it has members and stops when the handler breaks.  count_usages is their number. *)
Lemma L_C64_each_usages st L i : lists st L -> 1 <= i -> i < s_ilen st ->
  (forall H (h : rhandler H) x fuel, (length (L i) < fuel)%nat ->
     sl_each_usages fuel st i h x = Val (run_handler h (map (link_of (s_data st)) (L i)) x)) /\
  sl_count_usages st i = Val (N.of_nat (length (L i))).
Proof.
  intros (V & HO & IN & _) I1 I2. pose proof (HO i I1 I2) as H. specialize (IN i).
  assert (NZ : ~ In 0 (L i)) by (intros K; apply IN in K; auto; lia).
  pose proof H as H'. apply holds_lrep in H'; auto. destruct H' as (ND & _ & F & _ & C & SG).
  cbn [sl_hdr lfirst lcount] in F, C. split.
  - intros HH h x fuel LT. unfold sl_each_usages, sl_first, sl_root, rd.
    destruct (N.ltb_spec i (s_ilen st)); [|lia]. cbn [obind]. rewrite F.
    destruct (L i) as [|a l] eqn:EL.
    + cbn [hd map run_handler]. destruct fuel; [lia|]. reflexivity.
    + change (sl_walk fuel st a (hd 0 (a :: l)) h x = Val (run_handler h (map (link_of (s_data st)) (a :: l)) x)).
      apply (sl_walk_ok st V) with (p := last (a :: l) 0).
      * exact NZ.
      * cbn [tl]. now inversion ND.
      * intros y Hy. apply IN in Hy; auto. tauto.
      * discriminate.
      * exact SG.
      * lia.
  - unfold sl_count_usages, sl_size, sl_index, rd. destruct (N.ltb_spec i (s_ilen st)); [|lia]. cbn [obind]. now rewrite C.
Qed.

(** get_first and get_last are the ends of the list although set_last does nothing. *)
Lemma L_C64_ends st L i : lists st L -> 1 <= i -> i < s_ilen st ->
  sl_first st i = Val (hd 0 (L i)) /\ sl_last st i = Val (last (L i) 0).
Proof.
  intros (V & HO & IN & _) I1 I2. pose proof (HO i I1 I2) as H. specialize (IN i).
  assert (NZ : ~ In 0 (L i)) by (intros K; apply IN in K; auto; lia).
  assert (E1 : sl_first st i = Val (hd 0 (L i))).
  { unfold sl_first, sl_root, rd. destruct (N.ltb_spec i (s_ilen st)); [|lia]. destruct H as (_ & -> & _). reflexivity. }
  split; auto. unfold sl_last. rewrite E1. cbn [obind]. destruct H as (_ & _ & _ & K).
  destruct (L i) as [|a l]; [reflexivity|]. cbn [hd].
  destruct (N.eqb_spec a 0) as [->|A0]; [exfalso; apply NZ; now left|].
  unfold sl_previous, sl_index, rd. destruct (IN a) as (_ & A & _); auto; [now left|].
  destruct (N.ltb_spec a (s_ilen st)); [|lia]. cbn [obind]. destruct (K 0%nat a eq_refl) as [_ ->]. reflexivity.
Qed.

Lemma lrep_holds_write st head h d l : ~ In 0 l -> lrep h d l -> holds (sl_write st head h d) head l.
Proof.
  intros NZ (ND & _ & F & LA & C & SG). rewrite seg_nth in SG. unfold holds, sl_write, s_set_src. cbn [s_rs s_is nz].
  rewrite upd_same, N.eqb_refl. repeat (split; auto); specialize (SG _ _ H); cbn [nl nr]; rewrite SG; reflexivity.
Qed.
Lemma holds_write_other st head h d j l : j <> head -> (forall y, In y l -> d y = sl_ends st y) ->
  holds st j l -> holds (sl_write st head h d) j l.
Proof.
  intros J E (ND & F & C & K). unfold holds, sl_write, s_set_src. cbn [s_rs s_is nz].
  rewrite upd_other by auto. destruct (N.eqb_spec j head); [contradiction|]. split; auto. split; auto. split; auto.
  intros k x E1. pose proof (nth_error_In _ _ E1) as IX. cbn [nl nr]. rewrite (E x IX). unfold sl_ends. cbn [fst snd]. now apply K.
Qed.

Lemma write_lists st L i l h d : lists st L -> 1 <= i -> i < s_ilen st ->
  lrep h d l -> (forall y, In y l -> 1 <= y /\ y < s_ilen st /\ y < s_dlen st) ->
  (forall j y, 1 <= j -> j < s_ilen st -> j <> i -> In y (L j) -> d y = sl_ends st y /\ ~ In y l) ->
  lists (sl_write st i h d) (upd L i l).
Proof.
  intros (V & HO & IN & DJ) I1 I2 R B O. change (s_ilen st) with (s_ilen (sl_write st i h d)) in *.
  unfold lists. split; [exact V|]. split; [|split].
  - intros j J1 J2. destruct (N.eq_dec j i) as [->|JI].
    + rewrite upd_same. apply lrep_holds_write; auto. intros K. apply B in K. lia.
    + rewrite upd_other by auto. apply holds_write_other; auto. intros y Y. now destruct (O j y J1 J2 JI Y).
  - intros j x J1 J2. destruct (N.eq_dec j i) as [->|JI]; [rewrite upd_same; apply B|rewrite upd_other by auto; now apply IN].
  - intros j k x J1 J2 K1 K2. unfold upd. destruct (N.eqb_spec j i) as [->|JI], (N.eqb_spec k i) as [->|KI]; auto.
    + intros X1 X2. destruct (O k x K1 K2 KI X2). contradiction.
    + intros X1 X2. destruct (O j x J1 J2 JI X1). contradiction.
    + now apply DJ.
Qed.

(** attach_as_first puts a cell that is in no list in front of the list of a head, detach
    takes a member out; both leave all other lists alone. *)
Lemma L_C64_attach_detach lops st L i x : list_ops_ok lops -> lists st L -> 1 <= i -> i < s_ilen st ->
  1 <= x -> x < s_ilen st -> x < s_dlen st ->
  ((forall j, 1 <= j -> j < s_ilen st -> ~ In x (L j)) ->
     exists st', sl_attach lops st i x = Val st' /\ lists st' (upd L i (x :: L i)) /\
       s_data st' = s_data st /\ s_ilen st' = s_ilen st /\ s_dlen st' = s_dlen st) /\
  (In x (L i) ->
     exists st', sl_detach lops st i x = Val st' /\ lists st' (upd L i (remove N.eq_dec x (L i))) /\
       s_data st' = s_data st /\ s_ilen st' = s_ilen st /\ s_dlen st' = s_dlen st).
Proof.
  intros LO LS I1 I2 X1 X2 X3. pose proof LS as (V & HO & IN & DJ).
  assert (NZ : ~ In 0 (L i)) by (intros K; apply IN in K; auto; lia).
  assert (R : lrep (sl_hdr st i) (sl_ends st) (L i)) by (apply holds_lrep; auto).
  assert (RD : forall y, y < s_ilen st -> sl_index st y = Val (s_is st y)).
  { intros y Y. unfold sl_index, rd. destruct (N.ltb_spec y (s_ilen st)); [reflexivity|lia]. }
  split.
  - intros NI. destruct (l_attach_ok lops LO _ _ _ x R) as (h & d & E & R' & O); [lia|now apply NI|].
    exists (sl_write st i h d). unfold sl_attach. rewrite !RD, E by auto. cbn [obind]. split; auto. split; auto.
    apply write_lists; auto.
    + intros y [<-|Y]; auto. now apply (IN i).
    + intros j y J1 J2 JI Y. assert (NY : ~ In y (L i)) by (intros K; apply JI; eapply DJ; eauto).
      assert (YX : y <> x) by (intros ->; exact (NI j J1 J2 Y)). split; [now apply O|]. intros [K|K]; [congruence|contradiction].
  - intros XI. destruct (l_detach_ok lops LO _ _ _ x R XI) as (h & d & E & R' & _ & O).
    exists (sl_write st i h d). unfold sl_detach. rewrite !RD, E by auto. cbn [obind]. split; auto. split; auto.
    apply write_lists; auto.
    + intros y Y. apply in_lremove in Y. apply (IN i); tauto.
    + intros j y J1 J2 JI Y. assert (NY : ~ In y (L i)) by (intros K; apply JI; eapply DJ; eauto).
      split; [now apply O|]. intros K. apply in_lremove in K. tauto.
Qed.

(** A memory of zeroes holds the empty lists. *)
Lemma L_C64_zeroed st : s_dlen st = s_dcap st ->
  (forall i, 1 <= i -> i < s_ilen st -> s_rs st i = 0 /\ s_is st i = nd0) -> lists st (fun _ => []).
Proof.
  intros V Z. split; auto. split; [|split; [intros i x _ _ []|intros i j x _ _ _ _ []]].
  intros i I1 I2. destruct (Z i I1 I2) as [E1 E2]. unfold holds. rewrite E1, E2. split; [constructor|].
  split; auto. split; auto. intros [|k] x; discriminate.
Qed.

(** Whatever the memory holds: a walk whose handler never breaks either ends after at most as
    many rounds as there are cells, or never. *)
Lemma iter_succ_r {A} (f : A -> A) x k : Nat.iter (S k) f x = Nat.iter k f (f x).
Proof.
  induction k as [|k IH]; [reflexivity|].
  change (f (Nat.iter (S k) f x) = f (Nat.iter k f (f x))). now rewrite IH.
Qed.
Definition sl_to (st : sst) (k : nat) (x : N) : N := Nat.iter k (fun y => nr (s_is st y)) x.
Lemma sl_walk_diverge st first H (h : rhandler H) : (forall x v, snd (h x v) = Continue) ->
  forall fuel cur x, sl_walk fuel st first cur h x = Diverge ->
  forall k, (k < fuel)%nat -> sl_to st k cur <> 0 /\ sl_to st k cur < s_ilen st /\ sl_to st k cur < s_dlen st /\
    s_dlen st = s_dcap st /\ sl_to st (S k) cur <> first.
Proof.
  intros NB. induction fuel as [|fuel IH]; intros cur x E k LT; [lia|]. cbn [sl_walk] in E.
  destruct (N.eqb_spec cur 0) as [->|C0]; [discriminate|].
  unfold sl_link_value, s_get_data, s_view, rd in E.
  destruct (N.eqb_spec (s_dlen st) (s_dcap st)) as [V|]; cbn [obind] in E; [|discriminate].
  destruct (N.ltb_spec cur (s_dlen st)) as [CD|]; cbn [obind] in E; [|discriminate].
  pose proof (NB x (mkLink cur (fst (s_data st cur)) (snd (s_data st cur)))) as N1.
  destruct (h x _) as [x' []]; [|discriminate].
  unfold sl_next, sl_index, rd in E. destruct (N.ltb_spec cur (s_ilen st)) as [CI|]; cbn [obind] in E; [|discriminate].
  destruct (N.eqb_spec (nr (s_is st cur)) first) as [|NF]; [discriminate|].
  destruct k as [|k]; [auto 6|].
  assert (SH : forall m, sl_to st (S m) cur = sl_to st m (nr (s_is st cur))).
  { intros m. apply (iter_succ_r (fun y => nr (s_is st y))). }
  rewrite !SH. apply (IH _ _ E k). lia.
Qed.
Lemma sl_walk_goes_on st first H (h : rhandler H) : (forall x v, snd (h x v) = Continue) -> s_dlen st = s_dcap st ->
  forall fuel cur x,
  (forall k, sl_to st k cur <> 0 /\ sl_to st k cur < s_ilen st /\ sl_to st k cur < s_dlen st /\ sl_to st (S k) cur <> first) ->
  sl_walk fuel st first cur h x = Diverge.
Proof.
  intros NB V. induction fuel as [|fuel IH]; intros cur x K; [reflexivity|]. cbn [sl_walk].
  destruct (K 0%nat) as (K1 & K2 & K3 & K4). change (sl_to st 0 cur) with cur in *. change (sl_to st 1 cur) with (nr (s_is st cur)) in *.
  destruct (N.eqb_spec cur 0); [contradiction|]. rewrite (sl_link_value_ok st V) by auto. cbn [obind].
  pose proof (NB x (link_of (s_data st) cur)) as N1. destruct (h x _) as [x' []]; [|discriminate].
  unfold sl_next, sl_index, rd. destruct (N.ltb_spec cur (s_ilen st)); [|lia]. cbn [obind].
  destruct (N.eqb_spec (nr (s_is st cur)) first); [contradiction|]. apply IH. intros k.
  assert (SH : forall m, sl_to st (S m) cur = sl_to st m (nr (s_is st cur))).
  { intros m. apply (iter_succ_r (fun y => nr (s_is st y))). }
  rewrite <- !SH. apply K.
Qed.

Lemma iter_repeat {A} (f : A -> A) (x : A) i j : (i < j)%nat -> Nat.iter i f x = Nat.iter j f x ->
  forall k, exists m, (m < j)%nat /\ Nat.iter k f x = Nat.iter m f x.
Proof.
  intros LT E. induction k as [|k IH]; [exists 0%nat; split; [lia|reflexivity]|].
  destruct IH as (m & M & EM). change (Nat.iter (S k) f x) with (f (Nat.iter k f x)). rewrite EM. destruct (Nat.eq_dec (S m) j) as [<-|NE].
  - exists i. split; [lia|]. rewrite E. reflexivity.
  - exists (S m). split; [lia|reflexivity].
Qed.
Lemma pigeonhole (f : nat -> N) n : (forall k, (k <= n)%nat -> f k < N.of_nat n) ->
  exists i j, (i < j)%nat /\ (j <= n)%nat /\ f i = f j.
Proof.
  intros B. set (l := map f (seq 0 (S n))).
  assert (ND : ~ NoDup l).
  { intros ND. assert (IC : incl l (map N.of_nat (seq 0 n))).
    { intros y Y. apply in_map_iff in Y as (k & <- & K). apply in_seq in K. apply in_map_iff.
      exists (N.to_nat (f k)). split; [apply N2Nat.id|]. apply in_seq. specialize (B k ltac:(lia)). lia. }
    pose proof (NoDup_incl_length ND IC) as LE. unfold l in LE. rewrite !map_length, !seq_length in LE. lia. }
  assert (P : forall m, (forall i j, (i < j)%nat -> (j < m)%nat -> f i <> f j) \/
                        exists i j, (i < j)%nat /\ (j < m)%nat /\ f i = f j).
  { induction m as [|m [IH|(i & j & X)]]; [left; intros; lia| |right; exists i, j; intuition lia].
    assert (Q : forall b, (forall i, (i < b)%nat -> f i <> f m) \/ exists i, (i < b)%nat /\ f i = f m).
    { induction b as [|b [IHb|(i & X)]]; [left; intros; lia| |right; exists i; intuition lia].
      destruct (N.eq_dec (f b) (f m)) as [E|NE]; [right; exists b; auto|]. left. intros i I.
      destruct (Nat.eq_dec i b) as [->|]; auto. apply IHb. lia. }
    destruct (Q m) as [Q1|(i & I & E)]; [|right; exists i, m; auto].
    left. intros i j I J. destruct (Nat.eq_dec j m) as [->|]; [now apply Q1|apply IH; lia]. }
  destruct (P (S n)) as [P1|(i & j & I & J & E)]; [|exists i, j; intuition lia].
  exfalso. apply ND. unfold l.
  assert (G : forall m s, (s + m <= S n)%nat -> NoDup (map f (seq s m))).
  { induction m as [|m IH]; intros s SM; [constructor|]. cbn [seq map]. constructor; [|apply IH; lia].
    intros K. apply in_map_iff in K as (k & E & K). apply in_seq in K. symmetry in E. revert E. apply P1; lia. }
  apply G. lia.
Qed.

Lemma L_C64_ends_or_never st i H (h : rhandler H) x fuel : (forall x v, snd (h x v) = Continue) ->
  (N.to_nat (s_ilen st) < fuel)%nat -> sl_each_usages fuel st i h x = Diverge ->
  forall fuel', sl_each_usages fuel' st i h x = Diverge.
Proof.
  intros NB LT E fuel'. unfold sl_each_usages, sl_first, sl_root, rd in *.
  destruct (N.ltb_spec i (s_ilen st)) as [I|]; cbn [obind] in *; [|discriminate].
  set (first := s_rs st i) in *.
  pose proof (sl_walk_diverge _ _ _ _ NB _ _ _ E) as K.
  destruct (pigeonhole (fun k => sl_to st k first) (N.to_nat (s_ilen st))) as (a & b & AB & B & EQ).
  { intros k LK. rewrite N2Nat.id. destruct (K k) as (_ & K2 & _); [lia|exact K2]. }
  destruct (K 0%nat) as (_ & _ & _ & V & _); [lia|].
  apply (sl_walk_goes_on _ _ _ _ NB V). intros k. unfold sl_to in EQ.
  destruct (iter_repeat _ _ a b AB EQ k) as (m & M & EM). fold (sl_to st k first) (sl_to st m first) in EM.
  destruct (K m) as (K1 & K2 & K3 & _ & K5); [lia|]. rewrite EM. split; auto. split; auto. split; auto.
  change (nr (s_is st (sl_to st k first)) <> first). rewrite EM. exact K5.
Qed.

(** ** Histories *)
(** A newly allocated memory, then any sequence of attaching a cell that is in no list,
    detaching a member, changing the data of links and growing the memory with zeroes. *)
Section Hist.
  Variable lops : list_ops.
  Inductive sl_hist : sst -> (N -> list N) -> Prop :=
  | slh_start st : s_dlen st = s_dcap st ->
      (forall i, 1 <= i -> i < s_ilen st -> s_rs st i = 0 /\ s_is st i = nd0) -> sl_hist st (fun _ => [])
  | slh_attach st L i x st' : sl_hist st L -> 1 <= i -> i < s_ilen st -> 1 <= x -> x < s_ilen st -> x < s_dlen st ->
      (forall j, ~ In x (L j)) -> sl_attach lops st i x = Val st' -> sl_hist st' (upd L i (x :: L i))
  | slh_detach st L i x st' : sl_hist st L -> In x (L i) -> sl_detach lops st i x = Val st' ->
      sl_hist st' (upd L i (remove N.eq_dec x (L i)))
  | slh_data st L d : sl_hist st L -> sl_hist (s_set_data st d) L
  | slh_grow st L st' : sl_hist st L -> s_ilen st <= s_ilen st' -> s_dlen st <= s_dlen st' -> s_dlen st' = s_dcap st' ->
      (forall i, 1 <= i -> i < s_ilen st -> s_rs st' i = s_rs st i /\ s_is st' i = s_is st i) ->
      (forall i, s_ilen st <= i -> 1 <= i -> i < s_ilen st' -> s_rs st' i = 0 /\ s_is st' i = nd0) ->
      sl_hist st' L.
End Hist.

Lemma sl_hist_lists lops st L : list_ops_ok lops -> sl_hist lops st L ->
  lists st L /\ forall i, L i <> [] -> 1 <= i /\ i < s_ilen st.
Proof.
  intros LO. induction 1 as [st V Z|st L i x st' _ IH I1 I2 X1 X2 X3 NI E|st L i x st' _ IH XI E|st L d _ IH|st L st' _ IH GI GD V SAME NEW].
  - split; [now apply L_C64_zeroed|]. congruence.
  - destruct IH as [LS B]. destruct (L_C64_attach_detach lops st L i x LO LS I1 I2 X1 X2 X3) as [(st2 & E2 & LS2 & _ & E3 & _) _]; auto.
    rewrite E in E2. injection E2 as <-. split; auto. intros j. rewrite E3. unfold upd.
    destruct (N.eqb_spec j i) as [E4|]; [subst j|]; auto.
  - destruct IH as [LS B]. assert (NE : L i <> []) by (intros C; rewrite C in XI; destruct XI).
    destruct (B i NE) as [I1 I2]. pose proof LS as (_ & _ & IN & _). destruct (IN i x I1 I2 XI) as (X1 & X2 & X3).
    destruct (L_C64_attach_detach lops st L i x LO LS I1 I2 X1 X2 X3) as [_ (st2 & E2 & LS2 & _ & E3 & _)]; auto.
    rewrite E in E2. injection E2 as <-. split; auto. intros j. rewrite E3. unfold upd.
    destruct (N.eqb_spec j i) as [E4|]; [subst j|]; auto.
  - exact IH.
  - destruct IH as [(_ & HO & IN & DJ) B].
    assert (EM : forall j, s_ilen st <= j -> L j = []).
    { intros j J. destruct (L j) as [|a l] eqn:EL; auto. assert (NE : L j <> []) by congruence. apply B in NE. lia. }
    assert (IL : forall j x, In x (L j) -> 1 <= j /\ j < s_ilen st).
    { intros j x X. apply B. intros C. rewrite C in X. destruct X. }
    split; [|intros j J; apply B in J; lia]. split; auto. split; [|split].
    + intros j J1 J2. destruct (N.le_gt_cases (s_ilen st) j) as [G|G].
      * rewrite EM by auto. destruct (NEW j G J1 J2) as [E1 E2]. unfold holds. rewrite E1, E2.
        split; [constructor|]. split; auto. split; auto. intros [|k] x; discriminate.
      * destruct (HO j J1 G) as (ND & F & C & K). destruct (SAME j J1 G) as [E1 E2]. unfold holds. rewrite E1, E2.
        split; auto. split; auto. split; auto. intros k x NX. destruct (IN j x J1 G (nth_error_In _ _ NX)) as (X1 & X2 & _).
        destruct (SAME x X1 X2) as [_ ->]. now apply K.
    + intros j x _ _ X. destruct (IL j x X) as [J1 J2]. destruct (IN j x J1 J2 X) as (X1 & X2 & X3). lia.
    + intros j k x _ _ _ _ X Y. destruct (IL j x X), (IL k x Y). eapply DJ; eauto.
Qed.

(** The lists of every history, and what the two reading functions make of them. *)
Lemma L_C64_histories lops st L : list_ops_ok lops -> sl_hist lops st L ->
  lists st L /\
  forall i, 1 <= i -> i < s_ilen st ->
    (forall H (h : rhandler H) x,
       sl_each_usages (S (N.to_nat (s_ilen st))) st i h x = Val (run_handler h (map (link_of (s_data st)) (L i)) x)) /\
    sl_count_usages st i = Val (N.of_nat (length (L i))).
Proof.
  intros LO HH. destruct (sl_hist_lists lops st L LO HH) as [LS B]. split; auto. intros i I1 I2.
  destruct (L_C64_each_usages st L i LS I1 I2) as [E C]. split; auto. intros H h x. apply E.
  pose proof LS as (_ & HO & IN & _). destruct (HO i I1 I2) as (ND & _).
  assert (IC : incl (L i) (map N.of_nat (seq 0 (N.to_nat (s_ilen st))))).
  { intros y Y. destruct (IN i y I1 I2 Y) as (Y1 & Y2 & _). apply in_map_iff. exists (N.to_nat y).
    split; [apply N2Nat.id|]. apply in_seq. lia. }
  pose proof (NoDup_incl_length ND IC) as LE. rewrite map_length, seq_length in LE. lia.
Qed.

(** Each setter changes the field its getter reads, of that element, and nothing else; there
    is no field for the last element, so set_last changes nothing. *)
Definition sl_unlike (st st' : sst) (first previous next size : N -> Prop) : Prop :=
  forall j, (~ first j -> sl_first st' j = sl_first st j) /\ (~ previous j -> sl_previous st' j = sl_previous st j) /\
    (~ next j -> sl_next st' j = sl_next st j) /\ (~ size j -> sl_size st' j = sl_size st j) /\
    sl_link_value st' j = sl_link_value st j.
Definition none (_ : N) : Prop := False.
Lemma L_C64_setters st i x : 1 <= i -> i < s_ilen st ->
  (exists st', sl_set_first st i x = Val st' /\ sl_first st' i = Val x /\ sl_unlike st st' (eq i) none none none) /\
  (exists st', sl_set_previous st i x = Val st' /\ sl_previous st' i = Val x /\ sl_unlike st st' none (eq i) none none) /\
  (exists st', sl_set_next st i x = Val st' /\ sl_next st' i = Val x /\ sl_unlike st st' none none (eq i) none) /\
  (exists st', sl_set_size st i x = Val st' /\ sl_size st' i = Val x /\ sl_unlike st st' none none none (eq i)) /\
  (exists st', sl_set_last st i x = Val st' /\ sl_unlike st st' none none none none).
Proof.
  intros _ LT.
  unfold sl_unlike, sl_set_first, sl_set_previous, sl_set_next, sl_set_size, sl_set_last, sl_put_index, sl_first, sl_previous,
    sl_next, sl_size, sl_root, sl_index, rd. destruct (N.ltb_spec i (s_ilen st)) as [_|]; [|lia]. cbn [obind].
  assert (U : forall A (c : N -> A) v, upd c i v i = v) by (intros; apply upd_same).
  assert (O : forall A (c : N -> A) v j, j <> i -> upd c i v j = c j) by (intros; now apply upd_other).
  split; [|split; [|split; [|split]]].
  all: eexists; split; [reflexivity|]; cbn [s_set_src s_ilen s_rs s_is].
  all: try (split; [destruct (N.ltb_spec i (s_ilen st)) as [_|]; [|lia]; cbn [obind]; rewrite U; reflexivity|]).
  all: intros j; split; [intros F|split; [intros F|split; [intros F|split; [intros F|reflexivity]]]]; try reflexivity.
  all: destruct (N.eq_dec j i) as [->|J]; [destruct (F eq_refl) || (rewrite U; destruct (i <? s_ilen st); reflexivity)|rewrite O by exact J; reflexivity].
Qed.
(** Outside the memory every getter and every setter but that of the last element panics. *)
Lemma L_C64_out_of_bounds st i x : s_ilen st <= i ->
  sl_first st i = Panic /\ sl_previous st i = Panic /\ sl_next st i = Panic /\ sl_size st i = Panic /\ sl_last st i = Panic /\
  sl_set_first st i x = Panic /\ sl_set_previous st i x = Panic /\ sl_set_next st i x = Panic /\ sl_set_size st i x = Panic /\
  sl_set_last st i x = Val st.
Proof.
  intros LE.
  unfold sl_last, sl_set_first, sl_set_previous, sl_set_next, sl_set_size, sl_set_last, sl_put_index, sl_first, sl_previous,
    sl_next, sl_size, sl_root, sl_index, rd. destruct (N.ltb_spec i (s_ilen st)) as [|_]; [lia|]. cbn [obind]. repeat split.
Qed.
(** So do putting an element into a list and taking it out, whatever the list. *)
Lemma L_C64_attach_out_of_bounds lops st head x : s_ilen st <= head \/ s_ilen st <= x ->
  sl_attach lops st head x = Panic /\ sl_detach lops st head x = Panic.
Proof.
  intros LE. unfold sl_attach, sl_detach, sl_index, rd.
  destruct (N.ltb_spec head (s_ilen st)) as [H|H], (N.ltb_spec x (s_ilen st)) as [X|X]; cbn [obind]; split; auto; lia.
Qed.
(** ** Examples *)
Definition ex_zero : sst := mkS 10 10 10 (fun _ _ _ => NoData) (fun i => (i, i + 1)) (fun _ => 0) (fun _ => nd0) (fun _ => 0) (fun _ => nd0).
Definition ex_do (o : out sst) : sst := match o with Val st => st | _ => ex_zero end.
Definition ex_l1 := ex_do (sl_attach ref_list_ops ex_zero 1 2).
Definition ex_l2 := ex_do (sl_attach ref_list_ops ex_l1 1 3).
Definition ex_l3 := ex_do (sl_attach ref_list_ops ex_l2 3 5).
Definition ex_l4 := ex_do (sl_attach ref_list_ops ex_l3 1 4).
Definition ex_l5 := ex_do (sl_attach ref_list_ops ex_l4 1 6).
Definition ex_l6 := ex_do (sl_detach ref_list_ops ex_l5 1 3).
Lemma L_C64_nonvacuous : exists st L, sl_hist ref_list_ops st L /\ L 1 = [6; 4; 2] /\ L 3 = [5] /\
  sl_each_usages 10 st 1 (fun v l => (v ++ [l], Continue)) [] = Val ([mkLink 6 6 7; mkLink 4 4 5; mkLink 2 2 3], Continue) /\
  sl_each_usages 10 st 1 (fun v l => (v ++ [l], if l_index l =? 4 then Break else Continue)) [] = Val ([mkLink 6 6 7; mkLink 4 4 5], Break) /\
  sl_count_usages st 1 = Val 3 /\ sl_last st 1 = Val 2.
Proof.
  assert (A : forall st L i x, sl_hist ref_list_ops st L -> (1 <=? i) && (i <? s_ilen st) && (1 <=? x) && (x <? s_ilen st) && (x <? s_dlen st) = true ->
    (forall j, ~ In x (L j)) -> (exists st', sl_attach ref_list_ops st i x = Val st') ->
    sl_hist ref_list_ops (ex_do (sl_attach ref_list_ops st i x)) (upd L i (x :: L i))).
  { intros st L i x HH B NI (st' & E). repeat (apply andb_true_iff in B as [B ?]).
    repeat match goal with K : (_ <=? _) = true |- _ => apply N.leb_le in K | K : (_ <? _) = true |- _ => apply N.ltb_lt in K end.
    rewrite E. eapply slh_attach; eauto. }
  assert (NI : forall (x : N) (L : N -> list N) (i y : N), x <> y -> (forall j, ~ In x (L j)) -> forall j, ~ In x (upd L i (y :: L i) j)).
  { intros x L i y NE K j. unfold upd. destruct (j =? i); [|apply K]. intros [->|C]; [contradiction|now apply K in C]. }
  assert (H0 : sl_hist ref_list_ops ex_zero (fun _ => [])) by (apply slh_start; [reflexivity|intros i _ _; split; reflexivity]).
  assert (H1 := A _ _ 1 2 H0 eq_refl (fun _ C => C) (ex_intro _ _ eq_refl)). fold ex_l1 in H1.
  assert (H2 := A _ _ 1 3 H1 eq_refl ltac:(repeat (apply NI; [discriminate|]); auto) (ex_intro _ _ eq_refl)). fold ex_l2 in H2.
  assert (H3 := A _ _ 3 5 H2 eq_refl ltac:(repeat (apply NI; [discriminate|]); auto) (ex_intro _ _ eq_refl)). fold ex_l3 in H3.
  assert (H4 := A _ _ 1 4 H3 eq_refl ltac:(repeat (apply NI; [discriminate|]); auto) (ex_intro _ _ eq_refl)). fold ex_l4 in H4.
  assert (H5 := A _ _ 1 6 H4 eq_refl ltac:(repeat (apply NI; [discriminate|]); auto) (ex_intro _ _ eq_refl)). fold ex_l5 in H5.
  exists ex_l6. eexists. split; [apply (slh_detach _ _ _ 1 3 ex_l6 H5); [vm_compute; auto|reflexivity]|].
  split; [vm_compute; reflexivity|]. split; [vm_compute; reflexivity|]. split; [vm_compute; reflexivity|].
  split; [vm_compute; reflexivity|]. split; vm_compute; reflexivity.
Qed.

(** Outside these histories the walk need not end: a list that leads into a ring without its
    first member. *)
Lemma L_C64_broken_ring_never_ends : exists st, s_dlen st = s_dcap st /\
  forall fuel, sl_each_usages fuel st 1 (fun (n : N) _ => (n + 1, Continue)) 0 = Diverge.
Proof.
  exists (mkS 10 10 10 (fun _ _ _ => NoData) (fun _ => (1, 1)) (fun i => if i =? 1 then 2 else 0)
            (fun i => if i =? 2 then mkNd 4 3 0 else if i =? 3 then mkNd 2 4 0 else if i =? 4 then mkNd 3 3 0 else nd0)
            (fun _ => 0) (fun _ => nd0)).
  split; [reflexivity|]. apply (L_C64_ends_or_never _ _ _ _ _ 20); [auto|cbn; lia|vm_compute; reflexivity].
Qed.

(** The memory of a store with sources trees is not such a memory: read as a list it shows
    only the right spine of the tree, and no usages are counted. *)
Lemma L_C64_tree_memory_is_no_list : exists st d, s_hist ex_cf ref_tree_ops ref_list_ops st d /\
  s_each ex_cf (fun v l => (v ++ [l_index l], Continue)) [200; 1; 200] st [] = Val ([4; 2; 3], Continue) /\
  sl_each_usages 100 st 1 (fun v l => (v ++ [l_index l], Continue)) [] = Val ([2; 3], Continue) /\
  sl_count_usages st 1 = Val 0.
Proof.
  set (l := [Cr; Cr; Cr; Cr; Up 2 1 3; Up 3 1 4; Up 4 1 2]).
  destruct (ex_sreach l) as (d & HH & _); [vm_compute; reflexivity..|]. exists (ex_sst l), d. split; [exact HH|].
  split; [|split]; vm_compute; reflexivity.
Qed.
