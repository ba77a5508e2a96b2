(** Two programs over the methods of the trees, plain insertion and removal: on every search tree
    they are the operations the models are run with (C75).  Programs stopped before the end. *)
From Coq Require Import NArith List Bool Lia Permutation Sorted.
From Verif Require Import Base Trees TreeImpl UnitModel Accessors.
Import ListNotations.
Open Scope N_scope.

(** [hang r m z k]: put the tree with root [m] and size [z] at the far right of the one behind [r]. *)
Fixpoint hang (fuel : nat) (r : ref) (m z : N) (k : prog unit) : prog unit :=
  match fuel with
  | O => Done Diverge
  | S f => Read r (fun n => if n =? 0 then Write r m k else GetSize n (fun y => SetSize n (y + z) (hang f (RightOf n) m z k)))
  end.
Fixpoint remove_at (fuel : nat) (r : ref) (x : N) : prog unit :=
  match fuel with
  | O => Done Diverge
  | S f =>
      Read r (fun n =>
        if n =? 0 then Done Panic
        else if n =? x then
          GetLeft x (fun l => GetRight x (fun m =>
            Write r l (if m =? 0 then ClearNode x (Done (Val tt))
                       else GetSize m (fun z => hang fuel r m z (ClearNode x (Done (Val tt)))))))
        else GetSize n (fun z => SetSize n (z - 1)
          (IsLeft x n (fun l => if l then remove_at f (LeftOf n) x else remove_at f (RightOf n) x))))
  end.

(** The first [n] accesses of a program. *)
Fixpoint cut {A} (n : nat) (p : prog A) : prog unit :=
  match n with
  | O => Done (Val tt)
  | S n' =>
      match p with
      | Done _ => Done (Val tt)
      | GetLeft a k => GetLeft a (fun v => cut n' (k v))
      | GetRight a k => GetRight a (fun v => cut n' (k v))
      | GetSize a k => GetSize a (fun v => cut n' (k v))
      | SetLeft a v k => SetLeft a v (cut n' k)
      | SetRight a v k => SetRight a v (cut n' k)
      | SetSize a v k => SetSize a v (cut n' k)
      | ClearNode a k => ClearNode a (cut n' k)
      | IsLeft a b k => IsLeft a b (fun v => cut n' (k v))
      | IsRight a b k => IsRight a b (fun v => cut n' (k v))
      | Read r k => Read r (fun v => cut n' (k v))
      | Write r v k => Write r v (cut n' k)
      end
  end.

(** Going through the pointers on the bare tree. *)
Definition rget (c : N -> nd) (root : N) (r : ref) : N :=
  match r with Root => root | LeftOf n => nl (c n) | RightOf n => nr (c n) end.
Definition rset (c : N -> nd) (r : ref) (v : N) : N -> nd :=
  match r with
  | Root => c
  | LeftOf n => upd c n (mkNd v (nr (c n)) (nz (c n)))
  | RightOf n => upd c n (mkNd (nl (c n)) v (nz (c n)))
  end.
Definition rroot (root : N) (r : ref) (v : N) : N := match r with Root => v | _ => root end.
(** The node a pointer points into is not in [l]. *)
Definition into (len : N) (r : ref) (l : list N) : Prop :=
  match r with Root => True | LeftOf n | RightOf n => n <> 0 /\ n < len /\ ~ In n l end.
(** What is not behind the pointer stays. *)
Definition stays (r : ref) (l : list N) (c : N -> nd) (root : N) (c' : N -> nd) (root' : N) : Prop :=
  match r with
  | Root => forall y, ~ In y l -> c' y = c y
  | LeftOf n => root' = root /\ nr (c' n) = nr (c n) /\ nz (c' n) = nz (c n) /\ forall y, ~ In y l -> y <> n -> c' y = c y
  | RightOf n => root' = root /\ nl (c' n) = nl (c n) /\ nz (c' n) = nz (c n) /\ forall y, ~ In y l -> y <> n -> c' y = c y
  end.

Section P.
  Variables (klen len : N) (k : N -> key).
  Notation run p c root := (on_tree klen len k p c root).

  Lemma node_ok {B} n (x : out B) : n <> 0 -> n < len -> node len n x = x.
  Proof. intros A L. unfold node. destruct (N.eqb_spec n 0); [congruence|]. destruct (N.ltb_spec n len); [auto|lia]. Qed.
  Lemma nodes_ok {B} a b (x : out B) : a <> 0 -> b <> 0 -> a < klen -> b < klen -> nodes klen a b x = x.
  Proof.
    intros A B' L M. unfold nodes. destruct (N.eqb_spec a 0); [congruence|]. destruct (N.eqb_spec b 0); [congruence|].
    destruct (N.ltb_spec a klen); [|lia]. destruct (N.ltb_spec b klen); [auto|lia].
  Qed.
  Lemma run_read A r (q : N -> prog A) c root l : into len r l -> run (Read r q) c root = run (q (rget c root r)) c root.
  Proof. destruct r; cbn [into on_tree rget]; auto; intros (? & ? & _); now rewrite node_ok. Qed.
  Lemma run_write A r v (q : prog A) c root l : into len r l -> run (Write r v q) c root = run q (rset c r v) (rroot root r v).
  Proof. destruct r; cbn [into on_tree rset rroot]; auto; intros (? & ? & _); now rewrite node_ok. Qed.
  Lemma run_left A n (q : N -> prog A) c root : n <> 0 -> n < len -> run (GetLeft n q) c root = run (q (nl (c n))) c root.
  Proof. intros. cbn [on_tree]. now apply node_ok. Qed.
  Lemma run_right A n (q : N -> prog A) c root : n <> 0 -> n < len -> run (GetRight n q) c root = run (q (nr (c n))) c root.
  Proof. intros. cbn [on_tree]. now apply node_ok. Qed.
  Lemma run_size A n (q : N -> prog A) c root : n <> 0 -> n < len -> run (GetSize n q) c root = run (q (nz (c n))) c root.
  Proof. intros. cbn [on_tree]. now apply node_ok. Qed.
  Lemma rget_rset c root r v : rget (rset c r v) (rroot root r v) r = v.
  Proof. destruct r; cbn; auto; now rewrite upd_same. Qed.
  Lemma into_mono r l l' : into len r l -> (forall y, In y l' -> In y l) -> into len r l'.
  Proof. destruct r; cbn; auto; intros (? & ? & ?) I; repeat split; auto. Qed.
  Lemma rget_stays r l c root o (n : N) c' root' : into len r (n :: l) -> (o = LeftOf n \/ o = RightOf n) -> stays o l c root c' root' ->
    rget c' root' r = rget c root r.
  Proof.
    intros IN [->| ->] S; cbn [stays] in S; destruct S as (E & _ & _ & F); destruct r as [|m|m]; cbn [rget]; auto; cbn [into] in IN; destruct IN as (_ & _ & NI); cbn in NI; rewrite F; auto.
  Qed.
  Lemma stays_rset r l c root v : into len r l -> stays r l c root (rset c r v) (rroot root r v).
  Proof. destruct r as [|m|m]; cbn; auto; intros (? & ? & ?); rewrite upd_same; repeat split; auto; intros y _ Y; now apply upd_other. Qed.
  Lemma stays_trans r l c root c1 root1 c2 root2 : stays r l c root c1 root1 -> stays r l c1 root1 c2 root2 -> stays r l c root c2 root2.
  Proof.
    destruct r as [|m|m]; cbn.
    - intros A B y Y. rewrite B, A; auto.
    - intros (A1 & A2 & A3 & A4) (B1 & B2 & B3 & B4). repeat split; try congruence. intros y Y Y'. rewrite B4, A4; auto.
    - intros (A1 & A2 & A3 & A4) (B1 & B2 & B3 & B4). repeat split; try congruence. intros y Y Y'. rewrite B4, A4; auto.
  Qed.
  Lemma stays_mono r l l' c root c' root' : (forall y, In y l -> In y l') -> stays r l c root c' root' -> stays r l' c root c' root'.
  Proof. intros I. destruct r; cbn; intros S; [|destruct S as (? & ? & ? & S)|destruct S as (? & ? & ? & S)]; repeat split; auto. Qed.
  (** one node of the tree changed besides what a pointer into it changes *)
  Lemma stays_up r l c root c1 n c' root' o : into len r (n :: l) -> (forall y, y <> n -> c1 y = c y) ->
    (o = LeftOf n \/ o = RightOf n) -> stays o l c1 root c' root' -> stays r (n :: l) c root c' root'.
  Proof.
    intros IN F1 O S.
    assert (R : root' = root) by (destruct O as [->| ->]; apply S).
    assert (F : forall y, ~ In y (n :: l) -> c' y = c y).
    { intros y Y. cbn in Y. rewrite <- F1 by (intros ->; tauto). destruct O as [->| ->]; cbn [stays] in S; apply S; auto; intros ->; tauto. }
    destruct r as [|m|m]; cbn [stays into] in *; auto; destruct IN as (_ & _ & NI); rewrite (F m NI); repeat split; auto.
  Qed.

  (** ** Stopping anywhere *)
  (** [always Q p c root]: whenever [p] is stopped, the column satisfies [Q]. *)
  Definition always {A} (Q : (N -> nd) -> Prop) (p : prog A) (c : N -> nd) (root : N) : Prop :=
    forall n c' root', run (cut n p) c root = Val (tt, c', root') -> Q c'.
  Ltac one := let n := fresh in intros n ? ?; destruct n as [|n]; cbn [cut]; [cbn [on_tree obind]; let H := fresh in intros H; injection H as <- <-; assumption|].
  Lemma always_done A (Q : (N -> nd) -> Prop) o c root : Q c -> always Q (Done (A := A) o) c root.
  Proof. intros H. one. cbn [on_tree obind]. intros E. injection E as <- <-. assumption. Qed.
  Lemma always_read A (Q : (N -> nd) -> Prop) r (q : N -> prog A) c root l : into len r l -> Q c -> always Q (q (rget c root r)) c root -> always Q (Read r q) c root.
  Proof. intros IN H K. one. rewrite (run_read _ _ _ _ _ _ IN). apply K. Qed.
  Lemma always_write A (Q : (N -> nd) -> Prop) r v (q : prog A) c root l : into len r l -> Q c -> always Q q (rset c r v) (rroot root r v) -> always Q (Write r v q) c root.
  Proof. intros IN H K. one. rewrite (run_write _ _ _ _ _ _ _ IN). apply K. Qed.
  Lemma always_size A (Q : (N -> nd) -> Prop) n (q : N -> prog A) c root : n <> 0 -> n < len -> Q c -> always Q (q (nz (c n))) c root -> always Q (GetSize n q) c root.
  Proof. intros N0 L H K. one. cbn [on_tree]. rewrite node_ok by auto. apply K. Qed.
  Lemma always_left A (Q : (N -> nd) -> Prop) n (q : N -> prog A) c root : n <> 0 -> n < len -> Q c -> always Q (q (nl (c n))) c root -> always Q (GetLeft n q) c root.
  Proof. intros N0 L H K. one. cbn [on_tree]. rewrite node_ok by auto. apply K. Qed.
  Lemma always_right A (Q : (N -> nd) -> Prop) n (q : N -> prog A) c root : n <> 0 -> n < len -> Q c -> always Q (q (nr (c n))) c root -> always Q (GetRight n q) c root.
  Proof. intros N0 L H K. one. cbn [on_tree]. rewrite node_ok by auto. apply K. Qed.
  Lemma always_set_size A (Q : (N -> nd) -> Prop) n v (q : prog A) c root : n <> 0 -> n < len -> Q c ->
    always Q q (upd c n (mkNd (nl (c n)) (nr (c n)) v)) root -> always Q (SetSize n v q) c root.
  Proof. intros N0 L H K. one. cbn [on_tree]. rewrite node_ok by auto. apply K. Qed.
  Lemma always_clear A (Q : (N -> nd) -> Prop) n (q : prog A) c root : n <> 0 -> n < len -> Q c -> always Q q (upd c n nd0) root -> always Q (ClearNode n q) c root.
  Proof. intros N0 L H K. one. cbn [on_tree]. rewrite node_ok by auto. apply K. Qed.
  Lemma always_is_left A (Q : (N -> nd) -> Prop) a b (q : bool -> prog A) c root : a <> 0 -> b <> 0 -> a < klen -> b < klen -> Q c ->
    always Q (q (klt (k a) (k b))) c root -> always Q (IsLeft a b q) c root.
  Proof. intros A0 B0 AL BL H K. one. cbn [on_tree]. rewrite nodes_ok by auto. apply K. Qed.
  Lemma always_impl A (Q Q' : (N -> nd) -> Prop) (p : prog A) c root : (forall c', Q c' -> Q' c') -> always Q p c root -> always Q' p c root.
  Proof. intros I H n c' root' E. apply I. eapply H; eauto. Qed.

  (** The nodes other than [x] that have size 0 stay the same. *)
  Definition keeps (x : N) (c c' : N -> nd) : Prop := forall j, j <> x -> (nz (c' j) = 0 <-> nz (c j) = 0).
  Lemma keeps_refl x c : keeps x c c.
  Proof. intros j _. reflexivity. Qed.
  Lemma keeps_trans x a b c : keeps x a b -> keeps x b c -> keeps x a c.
  Proof. intros A B j J. rewrite (B j J). auto. Qed.
  Lemma keeps_rset x c r v : keeps x c (rset c r v).
  Proof. intros j J. destruct r as [|m|m]; cbn [rset]; try reflexivity; unfold upd; destruct (N.eqb_spec j m) as [->|]; reflexivity. Qed.
  Lemma keeps_size x c n v l r : nz (c n) <> 0 -> v <> 0 -> keeps x c (upd c n (mkNd l r v)).
  Proof. intros Z V j J. unfold upd. destruct (N.eqb_spec j n) as [->|]; cbn [nz]; [tauto|reflexivity]. Qed.
  Lemma keeps_x x c n : keeps x c (upd c x n).
  Proof. intros j J. now rewrite upd_other. Qed.

  Lemma trep_troot c root t : trep c root t -> root = troot t.
  Proof. destruct t; cbn; [auto|]. now intros (-> & _). Qed.
  Lemma nodup_T l i r : NoDup (elems (T l i r)) -> NoDup (elems l) /\ NoDup (elems r) /\ ~ In i (elems l) /\ ~ In i (elems r) /\
    forall y, In y (elems l) -> In y (elems r) -> False.
  Proof.
    cbn [elems]. intros ND. pose proof (NoDup_remove_1 _ _ _ ND) as ND1. pose proof (NoDup_remove_2 _ _ _ ND) as ND2. rewrite in_app_iff in ND2.
    assert (AB : NoDup (elems l) /\ NoDup (elems r)) by (apply NoDup_app_inv in ND1; tauto). destruct AB. repeat split; auto.
    clear -ND1. intros y H1 H2. induction (elems l) as [|a L IH]; simpl in *; [tauto|].
    inversion ND1; subst. destruct H1 as [->|H1]; [apply H3, in_or_app; auto|auto].
  Qed.
  Lemma in_T y l i r : In y (elems (T l i r)) <-> In y (elems l) \/ y = i \/ In y (elems r).
  Proof. cbn [elems]. rewrite in_app_iff. cbn. intuition. Qed.

  Lemma tsize_T l i r : tsize (T l i r) = tsize l + 1 + tsize r.
  Proof. unfold tsize. cbn [elems]. rewrite app_length. cbn [length]. lia. Qed.

  (** ** Insertion *)
  Lemma insert_ok x : x <> 0 -> x < len -> x < klen -> forall t fuel r c root,
    trep c (rget c root r) t -> NoDup (elems t) -> (forall y, In y (elems t) -> y < len /\ y < klen) ->
    ~ In x (elems t) -> nl (c x) = 0 -> nr (c x) = 0 -> into len r (x :: elems t) -> (height t < fuel)%nat ->
    exists c' root', run (insert_at fuel r x) c root = Val (tt, c', root') /\
      trep c' (rget c' root' r) (ins k x t) /\ stays r (x :: elems t) c root c' root' /\
      always (keeps x c) (insert_at fuel r x) c root.
  Proof.
    intros X0 XL XK. induction t as [|l IHl i r0 IHr]; intros fuel r c root TR ND BD XN XL0 XR0 IN FU; (destruct fuel as [|fuel]; [cbn in FU; lia|]); cbn [insert_at];
      rewrite (run_read _ _ _ _ _ _ IN).
    - cbn [trep] in TR. rewrite TR. cbn [N.eqb]. rewrite (run_write _ _ _ _ _ _ _ IN). cbn [on_tree]. rewrite node_ok by auto. cbn [obind].
      eexists _, _. split; [reflexivity|].
      assert (IX : forall y, y <> x -> upd (rset c r x) x (mkNd (nl (rset c r x x)) (nr (rset c r x x)) 1) y = rset c r x y) by (intros; now apply upd_other).
      assert (RX : rset c r x x = c x) by (destruct r as [|m|m]; cbn in *; auto; apply upd_other; intros ->; destruct IN as (_ & _ & K); apply K; auto).
      split; [|split].
      + cbn [ins trep]. rewrite upd_same. cbn [nl nr nz]. rewrite RX, XL0, XR0.
        assert (G : rget (upd (rset c r x) x (mkNd (nl (c x)) (nr (c x)) 1)) (rroot root r x) r = x).
        { transitivity (rget (rset c r x) (rroot root r x) r); [|apply rget_rset]. destruct r as [|m|m]; cbn [rget rset] in *; auto;
          (rewrite upd_other; [reflexivity|intros ->; cbn in IN; destruct IN as (_ & _ & K); apply K; auto]). }
        rewrite XL0, XR0 in G. rewrite G. repeat split; auto.
      + eapply stays_trans; [apply stays_rset; exact IN|].
        destruct r as [|m|m]; cbn [stays into rroot] in *.
        * intros y Y. apply IX. intros ->. apply Y. now left.
        * destruct IN as (_ & _ & K). assert (m <> x) by (intros ->; apply K; now left). rewrite !IX by auto. repeat split; auto. intros y Y _. apply IX. intros ->. apply Y. now left.
        * destruct IN as (_ & _ & K). assert (m <> x) by (intros ->; apply K; now left). rewrite !IX by auto. repeat split; auto. intros y Y _. apply IX. intros ->. apply Y. now left.
      + eapply always_read; [exact IN|apply keeps_refl|]. rewrite TR. cbn [N.eqb]. eapply always_write; [exact IN|apply keeps_refl|].
        apply always_set_size; auto; [apply keeps_rset|]. apply always_done. eapply keeps_trans; [apply (keeps_rset x c r x)|apply keeps_x].
    - cbn [trep] in TR. destruct TR as (RI & I0 & SZ & TL & TRR). rewrite RI.
      destruct (N.eqb_spec i 0) as [|_]; [congruence|].
      assert (IB : i < len /\ i < klen) by (apply BD; rewrite in_T; auto).
      destruct (nodup_T _ _ _ ND) as (NDl & NDr & IL & IR & DJ).
      assert (XI : x <> i) by (intros ->; apply XN; rewrite in_T; auto).
      cbn [on_tree]. rewrite !node_ok by tauto. rewrite nodes_ok by tauto. cbn [elems height] in FU.
      set (c1 := upd c i (mkNd (nl (c i)) (nr (c i)) (nz (c i) + 1))).
      assert (C1 : forall y, y <> i -> c1 y = c y) by (intros; unfold c1; now apply upd_other).
      assert (CI : c1 i = mkNd (nl (c i)) (nr (c i)) (nz (c i) + 1)) by (unfold c1; now rewrite upd_same).
      assert (TS : forall t', tsize t' = tsize l + 1 -> tsize (T t' i r0) = tsize (T l i r0) + 1).
      { unfold tsize. cbn [elems]. intros t' E. rewrite !app_length. cbn [length]. lia. }
      assert (TS' : forall t', tsize t' = tsize r0 + 1 -> tsize (T l i t') = tsize (T l i r0) + 1).
      { unfold tsize. cbn [elems]. intros t' E. rewrite !app_length. cbn [length]. lia. }
      assert (IS : forall t', tsize (ins k x t') = tsize t' + 1).
      { intros t'. unfold tsize. rewrite (Permutation_length (ins_perm k x t')). cbn [length]. lia. }
      destruct (klt (k x) (k i)) eqn:KL.
      + destruct (IHl fuel (LeftOf i) c1 root) as (c' & root' & E & TR' & ST & AL); auto.
        * cbn [rget]. rewrite CI. cbn [nl]. eapply trep_ext; [|exact TL]. intros y Y. apply C1. intros ->; auto.
        * intros y Y. apply BD. rewrite in_T. auto.
        * intros K. apply XN. rewrite in_T. auto.
        * now rewrite C1.
        * now rewrite C1.
        * cbn [into]. repeat split; try tauto. cbn. intuition.
        * lia.
        * exists c', root'. split; [exact E|].
          assert (G : rget c' root' r = i).
          { rewrite <- RI. assert (IN' : into len r (i :: x :: elems l)). { eapply into_mono; [exact IN|]. intros y [<-|[<-|Y]]; [right; rewrite in_T; auto|left; auto|right; rewrite in_T; auto]. }
            rewrite (rget_stays r (x :: elems l) c1 root (LeftOf i) i c' root' IN' (or_introl eq_refl) ST).
            destruct r as [|m|m]; cbn [rget]; auto; cbn in IN; rewrite C1; auto; intros ->; destruct IN as (_ & _ & K); apply K; right; rewrite in_app_iff; cbn; auto. }
          cbn [ins]. rewrite KL. cbn [trep]. rewrite G. pose proof ST as (_ & NR & NZ & FR).
          split; [|split].
          -- split; [auto|]. split; [auto|]. split; [rewrite NZ, CI; cbn [nz]; rewrite SZ; symmetry; apply TS, IS|]. split; [exact TR'|].
             rewrite NR, CI. cbn [nr]. eapply trep_ext; [|exact TRR]. intros y Y. rewrite FR; [apply C1; intros ->; auto| |intros ->; auto].
             cbn. intros [<-|K]; [apply XN; rewrite in_T; auto|eapply DJ; eauto].
          -- eapply stays_mono; [|eapply stays_up with (n := i) (l := x :: elems l) (c1 := c1) (o := LeftOf i); [|exact C1|auto|exact ST]].
             ++ intros y [<-|[<-|Y]]; cbn; rewrite in_app_iff; cbn; auto.
             ++ eapply into_mono; [exact IN|]. intros y [<-|[<-|Y]]; cbn; rewrite in_app_iff; cbn; auto.
          -- eapply always_read; [exact IN|apply keeps_refl|]. rewrite RI. destruct (N.eqb_spec i 0) as [|_]; [congruence|].
             apply always_size; try tauto; [apply keeps_refl|]. apply always_set_size; try tauto; [apply keeps_refl|].
             fold c1. apply always_is_left; try tauto; rewrite ?KL; [|eapply always_impl; [|exact AL]; intros c2; apply keeps_trans].
             all: apply keeps_size; [rewrite SZ, tsize_T; lia|lia].
      + destruct (IHr fuel (RightOf i) c1 root) as (c' & root' & E & TR' & ST & AL); auto.
        * cbn [rget]. rewrite CI. cbn [nr]. eapply trep_ext; [|exact TRR]. intros y Y. apply C1. intros ->; auto.
        * intros y Y. apply BD. rewrite in_T. auto.
        * intros K. apply XN. rewrite in_T. auto.
        * now rewrite C1.
        * now rewrite C1.
        * cbn [into]. repeat split; try tauto. cbn. intuition.
        * lia.
        * exists c', root'. split; [exact E|].
          assert (G : rget c' root' r = i).
          { rewrite <- RI. assert (IN' : into len r (i :: x :: elems r0)). { eapply into_mono; [exact IN|]. intros y [<-|[<-|Y]]; [right; rewrite in_T; auto|left; auto|right; rewrite in_T; auto]. }
            rewrite (rget_stays r (x :: elems r0) c1 root (RightOf i) i c' root' IN' (or_intror eq_refl) ST).
            destruct r as [|m|m]; cbn [rget]; auto; cbn in IN; rewrite C1; auto; intros ->; destruct IN as (_ & _ & K); apply K; right; rewrite in_app_iff; cbn; auto. }
          cbn [ins]. rewrite KL. cbn [trep]. rewrite G. pose proof ST as (_ & NR & NZ & FR).
          split; [|split].
          -- split; [auto|]. split; [auto|]. split; [rewrite NZ, CI; cbn [nz]; rewrite SZ; symmetry; apply TS', IS|]. split; [|exact TR'].
             rewrite NR, CI. cbn [nl]. eapply trep_ext; [|exact TL]. intros y Y. rewrite FR; [apply C1; intros ->; auto| |intros ->; auto].
             cbn. intros [<-|K]; [apply XN; rewrite in_T; auto|eapply DJ; eauto].
          -- eapply stays_mono; [|eapply stays_up with (n := i) (l := x :: elems r0) (c1 := c1) (o := RightOf i); [|exact C1|auto|exact ST]].
             ++ intros y [<-|[<-|Y]]; cbn; rewrite in_app_iff; cbn; auto.
             ++ eapply into_mono; [exact IN|]. intros y [<-|[<-|Y]]; cbn; rewrite in_app_iff; cbn; auto.
          -- eapply always_read; [exact IN|apply keeps_refl|]. rewrite RI. destruct (N.eqb_spec i 0) as [|_]; [congruence|].
             apply always_size; try tauto; [apply keeps_refl|]. apply always_set_size; try tauto; [apply keeps_refl|].
             fold c1. apply always_is_left; try tauto; rewrite ?KL; [|eapply always_impl; [|exact AL]; intros c2; apply keeps_trans].
             all: apply keeps_size; [rewrite SZ, tsize_T; lia|lia].
  Qed.

  (** ** Removal *)
  Lemma stays_in r l c root c' root' y : into len r l -> stays r l c root c' root' -> ~ In y l -> (match r with Root => True | LeftOf n | RightOf n => y <> n end) -> c' y = c y.
  Proof. destruct r; cbn; intros _ S Y O; [auto|apply S; auto|apply S; auto]. Qed.
  Lemma rget_upd c root r n v : (match r with Root => True | LeftOf m | RightOf m => n <> m end) -> rget (upd c n v) root r = rget c root r.
  Proof. destruct r; cbn; auto; intros O; rewrite upd_other; auto. Qed.
  Lemma hang_ok x mt m z q : z = tsize mt -> z <> 0 -> forall a fuel r c root,
    trep c (rget c root r) a -> trep c m mt -> NoDup (elems a) -> (forall y, In y (elems a) -> y < len) ->
    (forall y, In y (elems a) -> In y (elems mt) -> False) -> into len r (elems a ++ elems mt) -> (height a < fuel)%nat ->
    exists c' root', run (hang fuel r m z q) c root = run q c' root' /\ trep c' (rget c' root' r) (merge a mt) /\
      stays r (elems a) c root c' root' /\ keeps x c c' /\ (always (keeps x c) q c' root' -> always (keeps x c) (hang fuel r m z q) c root).
  Proof.
    intros EZ Z0. induction a as [|l IHl i r0 IHr]; intros fuel r c root TR TM ND BD DJ IN FU; (destruct fuel as [|fuel]; [cbn in FU; lia|]); cbn [hang];
      rewrite (run_read _ _ _ _ _ _ IN).
    - cbn [trep] in TR. rewrite TR. cbn [N.eqb]. rewrite (run_write _ _ _ _ _ _ _ IN). eexists _, _. split; [reflexivity|]. cbn [merge].
      split; [|split; [|split]].
      + rewrite rget_rset. eapply trep_ext; [|exact TM]. intros y Y. destruct r as [|o|o]; cbn [rset into] in *; auto;
          (apply upd_other; intros ->; destruct IN as (_ & _ & K); apply K; rewrite in_app_iff; auto).
      + apply stays_rset. eapply into_mono; [exact IN|]. intros y [].
      + apply keeps_rset.
      + intros AL. eapply always_read; [exact IN|apply keeps_refl|]. rewrite TR. cbn [N.eqb]. eapply always_write; [exact IN|apply keeps_refl|exact AL].
    - cbn [trep] in TR. destruct TR as (RI & I0 & SZ & TL & TRR). rewrite RI. destruct (N.eqb_spec i 0) as [|_]; [congruence|].
      assert (IB : i < len) by (apply BD; rewrite in_T; auto).
      destruct (nodup_T _ _ _ ND) as (NDl & NDr & IL & IR & DJ').
      assert (IM : ~ In i (elems mt)) by (intros K; apply (DJ i); auto; rewrite in_T; auto).
      cbn [on_tree]. rewrite !node_ok by auto.
      set (c1 := upd c i (mkNd (nl (c i)) (nr (c i)) (nz (c i) + z))).
      assert (C1 : forall y, y <> i -> c1 y = c y) by (intros; unfold c1; now apply upd_other).
      assert (CI : c1 i = mkNd (nl (c i)) (nr (c i)) (nz (c i) + z)) by (unfold c1; now rewrite upd_same).
      assert (K1 : keeps x c c1) by (apply keeps_size; [rewrite SZ, tsize_T; lia|lia]).
      cbn [height] in FU.
      assert (IN' : into len r (i :: elems r0)). { eapply into_mono; [exact IN|]. intros y [<-|Y]; rewrite in_app_iff, in_T; auto. }
      destruct (IHr fuel (RightOf i) c1 root) as (c' & root' & E & TR' & ST & KP & AL); auto.
      + cbn [rget]. rewrite CI. cbn [nr]. eapply trep_ext; [|exact TRR]. intros y Y. apply C1. intros ->; auto.
      + eapply trep_ext; [|exact TM]. intros y Y. apply C1. intros ->; auto.
      + intros y Y. apply BD. rewrite in_T. auto.
      + intros y Y. apply DJ. rewrite in_T. auto.
      + cbn [into]. repeat split; auto. rewrite in_app_iff. tauto.
      + lia.
      + exists c', root'. split; [exact E|].
        assert (G : rget c' root' r = i).
        { rewrite <- RI. rewrite (rget_stays r (elems r0) c1 root (RightOf i) i c' root' IN' (or_intror eq_refl) ST).
          unfold c1. apply rget_upd. destruct r as [|o|o]; cbn in IN'; auto; intros ->; tauto. }
        cbn [merge trep]. rewrite G. pose proof ST as (_ & NR & NZ & FR). split; [|split; [|split]].
        * split; [auto|]. split; [auto|]. split.
          { rewrite NZ, CI. cbn [nz]. rewrite SZ, EZ, !tsize_T. assert (TSM : tsize (merge r0 mt) = tsize r0 + tsize mt) by (unfold tsize; rewrite merge_elems, app_length; lia). rewrite TSM. lia. }
          split; [|exact TR']. rewrite NR, CI. cbn [nl]. eapply trep_ext; [|exact TL]. intros y Y.
          rewrite FR; [apply C1; intros ->; auto| |intros ->; auto]. intros K. eapply DJ'; eauto.
        * eapply stays_mono; [|eapply stays_up with (n := i) (l := elems r0) (c1 := c1) (o := RightOf i); [exact IN'|exact C1|auto|exact ST]].
          intros y [<-|Y]; rewrite in_T; auto.
        * eapply keeps_trans; eauto.
        * intros A. eapply always_read; [exact IN|apply keeps_refl|]. rewrite RI. destruct (N.eqb_spec i 0) as [|_]; [congruence|].
          apply always_size; auto; [apply keeps_refl|]. apply always_set_size; auto; [apply keeps_refl|]. fold c1.
          eapply always_impl; [|apply AL].
          -- intros c2. apply keeps_trans; auto.
          -- eapply always_impl; [|exact A]. intros c2 A2 j J. rewrite (K1 j J). auto.
  Qed.
  Lemma merge_E l : merge l E = l.
  Proof. induction l as [|a _ i b IH]; cbn; [reflexivity|]. now rewrite IH. Qed.
  Lemma del_size x t : NoDup (elems t) -> wsorted k (elems t) -> key_alone k x (elems t) -> In x (elems t) -> tsize t = tsize (del k x t) + 1.
  Proof.
    intros ND WS KA HI. destruct (del_elems k x t ND WS KA HI) as (l1 & l2 & E1 & E2). unfold tsize. rewrite E1, E2, !app_length. cbn [length]. lia.
  Qed.
  Lemma del_in x t y : NoDup (elems t) -> wsorted k (elems t) -> key_alone k x (elems t) -> In x (elems t) -> In y (elems (del k x t)) -> In y (elems t) /\ y <> x.
  Proof.
    intros ND WS KA HI. destruct (del_elems k x t ND WS KA HI) as (l1 & l2 & E1 & E2). rewrite E1, E2. rewrite E1 in ND.
    pose proof (NoDup_remove_2 _ _ _ ND) as K. rewrite !in_app_iff in *. cbn. intros [Y|Y]; (split; [tauto|intros ->; tauto]).
  Qed.

  Lemma remove_ok x : forall t fuel r c root,
    trep c (rget c root r) t -> NoDup (elems t) -> wsorted k (elems t) -> key_alone k x (elems t) -> In x (elems t) ->
    (forall y, In y (elems t) -> y < len /\ y < klen) -> into len r (elems t) -> (height t < fuel)%nat ->
    exists c' root', run (remove_at fuel r x) c root = Val (tt, c', root') /\
      trep c' (rget c' root' r) (del k x t) /\ c' x = nd0 /\ stays r (elems t) c root c' root' /\
      always (keeps x c) (remove_at fuel r x) c root.
  Proof.
    induction t as [|l IHl i r0 IHr]; intros fuel r c root TR ND WS KA HI BD IN FU; [destruct HI|]. destruct fuel as [|fuel]; [cbn in FU; lia|].
    assert (X0 : x <> 0) by (intros ->; eapply trep_nonzero; eauto). pose proof (BD x HI) as [XL XK].
    cbn [trep] in TR. destruct TR as (RI & I0 & SZ & TL & TRR).
    destruct (nodup_T _ _ _ ND) as (NDl & NDr & IL & IR & DJ).
    assert (IB : i < len /\ i < klen) by (apply BD; rewrite in_T; auto).
    pose proof WS as WS0. unfold wsorted in WS0. cbn [elems] in WS0. apply SS_T in WS0 as (S1 & S2 & S3 & S4 & S5).
    cbn [remove_at del]. destruct (N.eqb_spec i x) as [<-|NE].
    - (* the node itself *)
      set (K := ClearNode i (Done (Val tt))).
      assert (OW : match r with Root => True | LeftOf o | RightOf o => i <> o end).
      { destruct r as [|o|o]; cbn in IN; auto; intros ->; destruct IN as (_ & _ & Q); apply Q; apply in_or_app; right; now left. }
      set (c1 := rset c r (nl (c i))). set (root1 := rroot root r (nl (c i))).
      assert (C1 : forall y, (match r with Root => True | LeftOf o | RightOf o => y <> o end) -> c1 y = c y).
      { intros y Y. unfold c1. destruct r; cbn [rset]; auto; now apply upd_other. }
      assert (OW' : forall y, In y (elems (T l i r0)) -> match r with Root => True | LeftOf o | RightOf o => y <> o end).
      { intros y Y. destruct r as [|o|o]; cbn [into] in IN; auto; intros ->; tauto. }
      assert (T1 : trep c1 (rget c1 root1 r) l).
      { unfold c1, root1. rewrite rget_rset. eapply trep_ext; [|exact TL]. intros y Y. apply C1, OW'. rewrite in_T. auto. }
      assert (T2 : trep c1 (nr (c i)) r0).
      { eapply trep_ext; [|exact TRR]. intros y Y. apply C1, OW'. rewrite in_T. auto. }
      assert (FIN : forall c' root', trep c' (rget c' root' r) (merge l r0) -> stays r (elems l) c1 root1 c' root' -> keeps i c1 c' ->
        run K c' root' = Val (tt, upd c' i nd0, root') /\ trep (upd c' i nd0) (rget (upd c' i nd0) root' r) (merge l r0) /\ upd c' i nd0 i = nd0 /\
        stays r (elems (T l i r0)) c root (upd c' i nd0) root' /\ always (keeps i c1) K c' root').
      { intros c' root' TT ST KP. split; [unfold K; cbn [on_tree]; rewrite node_ok by tauto; reflexivity|].
        split; [|split; [apply upd_same|split]].
        - rewrite rget_upd by auto. eapply trep_ext; [|exact TT]. intros y Y. apply upd_other. rewrite merge_elems, in_app_iff in Y. intros ->; tauto.
        - eapply stays_trans; [apply stays_rset; exact IN|]. fold c1 root1. eapply stays_trans.
          + eapply stays_mono; [|exact ST]. intros y Y. rewrite in_T. auto.
          + destruct r as [|o|o]; cbn [stays].
            * intros y Y. apply upd_other. intros ->. apply Y. rewrite in_T. auto.
            * rewrite upd_other by auto. repeat split. intros y Y _. apply upd_other. intros ->. apply Y. rewrite in_T. auto.
            * rewrite upd_other by auto. repeat split. intros y Y _. apply upd_other. intros ->. apply Y. rewrite in_T. auto.
        - apply always_clear; try tauto. apply always_done. eapply keeps_trans; [exact KP|apply keeps_x]. }
      assert (KC : keeps i c c1) by apply keeps_rset.
      rewrite (run_read _ _ _ _ _ _ IN), RI. destruct (N.eqb_spec i 0) as [|_]; [congruence|]. rewrite N.eqb_refl.
      rewrite run_left, run_right by tauto. fold K.
      assert (RW : forall p : prog unit, run (Write r (nl (c i)) p) c root = run p c1 root1) by (intros p; apply (run_write _ _ _ _ _ _ _ IN)).
      assert (AW : forall m : prog unit, (always (keeps i c) m c1 root1 -> always (keeps i c) (Write r (nl (c i)) m) c root)).
      { intros m AL. eapply always_write; [exact IN|apply keeps_refl|exact AL]. }
      rewrite RW.
      assert (TOP : always (keeps i c) (Write r (nl (c i)) (if nr (c i) =? 0 then K else GetSize (nr (c i)) (fun z => hang (S fuel) r (nr (c i)) z K))) c root ->
        always (keeps i c) (Read r (fun n => if n =? 0 then Done Panic else if n =? i then
          GetLeft i (fun l => GetRight i (fun m => Write r l (if m =? 0 then K else GetSize m (fun z => hang (S fuel) r m z K))))
          else GetSize n (fun z => SetSize n (z - 1) (IsLeft i n (fun b => if b then remove_at fuel (LeftOf n) i else remove_at fuel (RightOf n) i))))) c root).
      { intros AL. eapply always_read; [exact IN|apply keeps_refl|]. rewrite RI. destruct (N.eqb_spec i 0) as [|_]; [congruence|]. rewrite N.eqb_refl.
        apply always_left; [tauto|tauto|apply keeps_refl|]. apply always_right; [tauto|tauto|apply keeps_refl|]. exact AL. }
      destruct (N.eqb_spec (nr (c i)) 0) as [R0|R0].
      + rewrite R0 in TRR. apply trep_zero in TRR. subst r0. rewrite merge_E in *.
        destruct (FIN c1 root1) as (A1 & A2 & A3 & A4 & A5); [exact T1| |apply keeps_refl|].
        { destruct r; cbn [stays]; auto. }
        eexists _, _. split; [exact A1|]. split; [exact A2|]. split; [exact A3|]. split; [exact A4|].
        apply TOP, AW. eapply always_impl; [|exact A5]. intros c2. apply keeps_trans; auto.
      + assert (RB : nr (c i) < len). { apply BD. rewrite in_T. right. right. eapply trep_root_in; eauto. }
        assert (ZS : nz (c1 (nr (c i))) = tsize r0). { eapply trep_root_size; eauto. }
        assert (Z0 : nz (c1 (nr (c i))) <> 0). { eapply trep_size; [exact T2|]. eapply trep_root_in; eauto. }
        rewrite run_size by auto.
        destruct (hang_ok i r0 (nr (c i)) (nz (c1 (nr (c i)))) K ZS Z0 l (S fuel) r c1 root1) as (c' & root' & E & TT & ST & KP & AL); auto.
        * intros y Y. apply BD. rewrite in_T. auto.
        * eapply into_mono; [exact IN|]. intros y. rewrite in_app_iff, in_T. tauto.
        * cbn [height] in FU. lia.
        * destruct (FIN c' root' TT ST KP) as (A1 & A2 & A3 & A4 & A5). eexists _, _. split; [rewrite <- A1; exact E|].
          split; [exact A2|]. split; [exact A3|]. split; [exact A4|]. apply TOP, AW.
          apply always_size; auto. eapply always_impl; [|apply AL, A5]. intros c2. apply keeps_trans; auto.
    - rewrite (run_read _ _ _ _ _ _ IN), RI. destruct (N.eqb_spec i 0) as [|_]; [congruence|]. destruct (N.eqb_spec i x) as [|_]; [congruence|].
      cbn [on_tree]. rewrite !node_ok by tauto. rewrite nodes_ok by tauto.
      set (c1 := upd c i (mkNd (nl (c i)) (nr (c i)) (nz (c i) - 1))).
      assert (C1 : forall y, y <> i -> c1 y = c y) by (intros; unfold c1; now apply upd_other).
      assert (CI : c1 i = mkNd (nl (c i)) (nr (c i)) (nz (c i) - 1)) by (unfold c1; now rewrite upd_same).
      assert (TOP : forall (b : bool), klt (k x) (k i) = b -> nz (c i) - 1 <> 0 ->
        always (keeps x c1) (if b then remove_at fuel (LeftOf i) x else remove_at fuel (RightOf i) x) c1 root ->
        always (keeps x c) (Read r (fun n => if n =? 0 then Done Panic else if n =? x then
          GetLeft x (fun l => GetRight x (fun m => Write r l (if m =? 0 then ClearNode x (Done (Val tt)) else GetSize m (fun z => hang (S fuel) r m z (ClearNode x (Done (Val tt)))))))
          else GetSize n (fun z => SetSize n (z - 1) (IsLeft x n (fun b => if b then remove_at fuel (LeftOf n) x else remove_at fuel (RightOf n) x))))) c root).
      { intros b Eb V AL. assert (KC : keeps x c c1) by (apply keeps_size; [rewrite SZ, tsize_T; lia|exact V]).
        eapply always_read; [exact IN|apply keeps_refl|]. rewrite RI. destruct (N.eqb_spec i 0) as [|_]; [congruence|]. destruct (N.eqb_spec i x) as [|_]; [congruence|].
        apply always_size; try tauto; [apply keeps_refl|]. apply always_set_size; try tauto; [apply keeps_refl|]. fold c1.
        apply always_is_left; try tauto. rewrite Eb. eapply always_impl; [|exact AL]. intros c2. apply keeps_trans; auto. }
      cbn [height] in FU. rewrite in_T in HI.
      destruct (klt (k x) (k i)) eqn:KL.
      + assert (XI : In x (elems l)). { destruct HI as [HI|[HI|HI]]; [auto|congruence|]. specialize (S4 _ HI). congruence. }
        assert (KAl : key_alone k x (elems l)) by (intros b Hb; apply KA; rewrite in_T; auto).
        pose proof (del_size x l NDl S1 KAl XI) as DS.
        destruct (IHl fuel (LeftOf i) c1 root) as (c' & root' & E & TR' & CX & ST & AL); auto.
        * cbn [rget]. rewrite CI. cbn [nl]. eapply trep_ext; [|exact TL]. intros y Y. apply C1. intros ->; auto.
        * intros y Y. apply BD. rewrite in_T. auto.
        * cbn [into]. repeat split; tauto.
        * lia.
        * exists c', root'. split; [exact E|]. pose proof ST as (_ & NR & NZ & FR).
          assert (IN' : into len r (i :: elems l)). { eapply into_mono; [exact IN|]. intros y [<-|Y]; rewrite in_T; auto. }
          assert (G : rget c' root' r = i).
          { rewrite <- RI. rewrite (rget_stays r (elems l) c1 root (LeftOf i) i c' root' IN' (or_introl eq_refl) ST).
            unfold c1. apply rget_upd. destruct r as [|o|o]; cbn in IN'; auto; intros ->; tauto. }
          cbn [trep]. rewrite G. split; [|split; [exact CX|split]].
          -- split; [auto|]. split; [auto|]. split; [rewrite NZ, CI; cbn [nz]; rewrite SZ, !tsize_T; lia|]. split; [exact TR'|].
             rewrite NR, CI. cbn [nr]. eapply trep_ext; [|exact TRR]. intros y Y. rewrite FR; [apply C1; intros ->; auto| |intros ->; auto]. intros Q. eapply DJ; eauto.
          -- eapply stays_mono; [|eapply stays_up with (n := i) (l := elems l) (c1 := c1) (o := LeftOf i); [exact IN'|exact C1|auto|exact ST]].
             intros y [<-|Y]; rewrite in_T; auto.
          -- apply (TOP true); auto. rewrite SZ, tsize_T. lia.
      + assert (XI : In x (elems r0)).
        { destruct HI as [HI|[HI|HI]]; [|congruence|auto]. exfalso. apply NE. apply KA; [rewrite in_T; auto|]. symmetry. apply klt_antisym; auto. }
        assert (KAr : key_alone k x (elems r0)) by (intros b Hb; apply KA; rewrite in_T; auto).
        pose proof (del_size x r0 NDr S2 KAr XI) as DS.
        destruct (IHr fuel (RightOf i) c1 root) as (c' & root' & E & TR' & CX & ST & AL); auto.
        * cbn [rget]. rewrite CI. cbn [nr]. eapply trep_ext; [|exact TRR]. intros y Y. apply C1. intros ->; auto.
        * intros y Y. apply BD. rewrite in_T. auto.
        * cbn [into]. repeat split; tauto.
        * lia.
        * exists c', root'. split; [exact E|]. pose proof ST as (_ & NR & NZ & FR).
          assert (IN' : into len r (i :: elems r0)). { eapply into_mono; [exact IN|]. intros y [<-|Y]; rewrite in_T; auto. }
          assert (G : rget c' root' r = i).
          { rewrite <- RI. rewrite (rget_stays r (elems r0) c1 root (RightOf i) i c' root' IN' (or_intror eq_refl) ST).
            unfold c1. apply rget_upd. destruct r as [|o|o]; cbn in IN'; auto; intros ->; tauto. }
          cbn [trep]. rewrite G. split; [|split; [exact CX|split]].
          -- split; [auto|]. split; [auto|]. split; [rewrite NZ, CI; cbn [nz]; rewrite SZ, !tsize_T; lia|]. split; [|exact TR'].
             rewrite NR, CI. cbn [nl]. eapply trep_ext; [|exact TL]. intros y Y. rewrite FR; [apply C1; intros ->; auto| |intros ->; auto]. intros Q. eapply DJ; eauto.
          -- eapply stays_mono; [|eapply stays_up with (n := i) (l := elems r0) (c1 := c1) (o := RightOf i); [exact IN'|exact C1|auto|exact ST]].
             intros y [<-|Y]; rewrite in_T; auto.
          -- apply (TOP false); auto. rewrite SZ, tsize_T. lia.
  Qed.
End P.

Lemma trep_unique t : forall c c' root root', trep c root t -> trep c' root' t -> root = root' /\ forall y, In y (elems t) -> c y = c' y.
Proof.
  induction t as [|l IHl i r IHr]; intros c c' root root' A B; cbn [trep] in A, B; [subst; split; [auto|intros y []]|].
  destruct A as (-> & _ & Z & L & R), B as (-> & _ & Z' & L' & R').
  destruct (IHl _ _ _ _ L L') as [EL FL]. destruct (IHr _ _ _ _ R R') as [ER FR]. split; [reflexivity|].
  intros y Y. cbn [elems] in Y. rewrite in_app_iff in Y. destruct Y as [Y|[<-|Y]]; auto. destruct (c i), (c' i). cbn in *. congruence.
Qed.

(** On every search tree, plain insertion and removal through the methods are the operations the
    models are run with; so the hypothesis of the steps above can be met in every state. *)
Lemma L_C75_realised klen len k c root t x fuel :
  trep c root t -> NoDup (elems t) -> wsorted k (elems t) -> (forall y, In y (elems t) -> y < len /\ y < klen) ->
  x <> 0 -> x < len -> x < klen -> (height t < fuel)%nat ->
  (~ In x (elems t) -> c x = nd0 -> exists c' r' c2, t_attach ref_tree_ops k c root x = Val (c', r') /\
     on_tree klen len k (insert_at fuel Root x) c root = Val (tt, c2, r') /\ forall i, c2 i = c' i) /\
  (In x (elems t) -> key_alone k x (elems t) -> exists c' r' c2, t_detach ref_tree_ops k c root x = Val (c', r') /\
     on_tree klen len k (remove_at fuel Root x) c root = Val (tt, c2, r') /\ forall i, c2 i = c' i).
Proof.
  intros TR ND WS BD X0 XL XK FU. split.
  - intros XN CX. cbn [t_attach ref_tree_ops]. unfold ref_attach. rewrite (load_ok _ _ _ TR).
    destruct (insert_ok klen len k x X0 XL XK t fuel Root c root) as (c2 & r2 & E & T2 & ST & _); auto; try (now rewrite CX); [exact I|].
    cbn [rget stays] in *. pose proof (ins_perm k x t) as P.
    assert (ND' : NoDup (elems (ins k x t))) by (eapply Permutation_NoDup; [symmetry; exact P|]; constructor; auto).
    assert (NZ : ~ In 0 (elems (ins k x t))) by (intros K; apply (Permutation_in _ P) in K; destruct K as [K|K]; [congruence|exact (trep_nonzero _ _ _ TR K)]).
    destruct (trep_unique _ _ _ _ _ T2 (encode_trep (ins k x t) c ND' NZ)) as [-> F].
    eexists _, _, c2. split; [reflexivity|]. split; [exact E|]. intros i. destruct (in_dec N.eq_dec i (elems (ins k x t))) as [IN|NI]; [now apply F|].
    rewrite encode_other by auto. apply ST. intros K. apply NI. eapply Permutation_in; [symmetry; exact P|exact K].
  - intros XI KA. cbn [t_detach ref_tree_ops]. unfold ref_detach. rewrite (load_ok _ _ _ TR).
    destruct (remove_ok klen len k x t fuel Root c root) as (c2 & r2 & E & T2 & CX & ST & _); auto; [exact I|].
    cbn [rget stays] in *. destruct (del_elems k x t ND WS KA XI) as (l1 & l2 & E1 & E2).
    pose proof (del_in k x t) as DI.
    assert (ND' : NoDup (elems (del k x t))) by (rewrite E2; rewrite E1 in ND; eapply NoDup_remove_1; eauto).
    assert (NZ : ~ In 0 (elems (del k x t))) by (intros K; apply DI in K; auto; exact (trep_nonzero _ _ _ TR (proj1 K))).
    destruct (trep_unique _ _ _ _ _ T2 (encode_trep (del k x t) c ND' NZ)) as [-> F].
    eexists _, _, c2. split; [reflexivity|]. split; [exact E|]. intros i. destruct (N.eq_dec i x) as [->|NX]; [now rewrite upd_same, CX|]. rewrite upd_other by auto.
    destruct (in_dec N.eq_dec i (elems (del k x t))) as [IN|NI]; [now apply F|].
    rewrite encode_other by auto. apply ST. intros K. apply NI. rewrite E1 in K. rewrite E2. rewrite in_app_iff in *. cbn in K. destruct K as [|[|]]; auto. congruence.
Qed.
