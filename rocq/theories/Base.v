(** Base definitions: outcomes, results, links, flow control, constants.

    Shared by all models.  Nothing here is specific to one store. *)
From Coq Require Import NArith List Bool Lia Permutation.
Import ListNotations.
Open Scope N_scope.

(** Outcome of executing code.  [Panic]: Rust panic (failed [expect], slice index out
    of bounds, overflow check, [todo!], [unreachable!]).  [UB]: undefined behaviour
    ([unwrap_unchecked] on [None], [unreachable_unchecked]).  [Diverge]: a loop of the
    model ran out of fuel. *)
Inductive out (A : Type) : Type :=
| Val (a : A)
| Panic
| UB
| Diverge.
Arguments Val {A} a.
Arguments Panic {A}.
Arguments UB {A}.
Arguments Diverge {A}.

Definition obind {A B} (m : out A) (f : A -> out B) : out B :=
  match m with
  | Val a => f a
  | Panic => Panic
  | UB => UB
  | Diverge => Diverge
  end.

Notation "'let*' x ':=' m 'in' k" := (obind m (fun x => k))
  (at level 200, x pattern, m at level 100, k at level 200, right associativity).

(** doublets/src/data/error.rs: enum Error (payloads of [AllocFailed] and [Other] are
    dropped, [HasUsages] keeps its list of links). *)
Record link := mkLink { l_index : N; l_source : N; l_target : N }.

Inductive error : Type :=
| NotExists (i : N)
| HasUsages (l : list link)
| AlreadyExists (s t : N)
| LimitReached (n : N)
| AllocFailed
| OtherError.

(** Rust's [Result]. *)
Inductive result (A : Type) : Type :=
| Ok (a : A)
| Err (e : error).
Arguments Ok {A} a.
Arguments Err {A} e.

(** data::Flow (external crate): Continue | Break. *)
Inductive flow := Continue | Break.

Definition flow_eqb (a b : flow) : bool :=
  match a, b with Continue, Continue => true | Break, Break => true | _, _ => false end.

(** doublets/src/data/link.rs:17-21 [nothing] *)
Definition nothing : link := mkLink 0 0 0.

Definition link_eqb (a b : link) : bool :=
  (l_index a =? l_index b) && (l_source a =? l_source b) && (l_target a =? l_target b).

Lemma link_eqb_spec a b : reflect (a = b) (link_eqb a b).
Proof.
  destruct a as [i s t], b as [i' s' t']; unfold link_eqb; simpl.
  destruct (N.eqb_spec i i'), (N.eqb_spec s s'), (N.eqb_spec t t'); simpl; constructor; congruence.
Qed.

(** Handlers.  A Rust handler is an [FnMut] closure; its captured state is [H].
    ReadHandler: traits.rs:12, WriteHandler: traits.rs:14. *)
Definition rhandler (H : Type) := H -> link -> H * flow.
Definition whandler (H : Type) := H -> link -> link -> H * flow.

(** Calling a read handler on a list of links, stopping at the first Break
    (the meaning of [handler(link)?] in a loop). *)
Fixpoint run_handler {H} (h : rhandler H) (l : list link) (s : H) : H * flow :=
  match l with
  | [] => (s, Continue)
  | x :: l' =>
      match h s x with
      | (s', Continue) => run_handler h l' s'
      | (s', Break) => (s', Break)
      end
  end.

(** Checked arithmetic on the address type (Rust debug semantics). *)
Definition cadd (tmax a b : N) : out N := if a + b <=? tmax then Val (a + b) else Panic.
Definition csub (a b : N) : out N := if b <=? a then Val (a - b) else Panic.

(** [T::try_from(n).expect(..)] *)
Definition ctry (tmax n : N) : out N := if n <=? tmax then Val n else Panic.

(** Bounds-checked slice access (panics), and [unwrap_unchecked] access (UB). *)
Definition rd {A} (len : N) (c : N -> A) (i : N) : out A :=
  if i <? len then Val (c i) else Panic.
Definition rd_unchecked {A} (len : N) (c : N -> A) (i : N) : out A :=
  if i <? len then Val (c i) else UB.

Definition upd {A} (c : N -> A) (i : N) (v : A) : N -> A :=
  fun j => if j =? i then v else c j.

Lemma upd_same A (c : N -> A) i v : upd c i v i = v.
Proof. unfold upd. now rewrite N.eqb_refl. Qed.
Lemma upd_other A (c : N -> A) i v j : j <> i -> upd c i v j = c j.
Proof. unfold upd. intros. destruct (N.eqb_spec j i); congruence. Qed.

(** Slice indexing of a query: [query[k]] panics when out of range. *)
Definition qget (q : list N) (k : N) : out N :=
  match nth_error q (N.to_nat k) with Some v => Val v | None => Panic end.

(** data::LinksConstants (external crate), the fields used in this repository, plus
    the address type's maximum and the memory step/page constants. *)
Record cfg := mkCfg {
  c_tmax : N;          (* T::MAX *)
  c_step : N;          (* SIZE_STEP, unit/store.rs:41-44, split/store.rs:59-62 *)
  c_page : N;          (* mem::DEFAULT_PAGE_SIZE *)
  c_index_part : N;
  c_source_part : N;
  c_target_part : N;
  c_null : N;
  c_any : N;
  c_istart : N;        (* internal_range.start() *)
  c_iend : N;          (* internal_range.end() *)
  c_ext : option (N * N) (* external_range *)
}.

(** What the theorems require of the constants: the layout used by every
    [LinksConstants] constructor of the data crate. *)
Record cfg_ok (c : cfg) : Prop := {
  ok_ipart : c_index_part c = 0;
  ok_spart : c_source_part c = 1;
  ok_tpart : c_target_part c = 2;
  ok_null : c_null c = 0;
  ok_istart : c_istart c = 1;
  ok_iend : c_iend c < c_any c;
  ok_any : c_any c <= c_tmax c;
  ok_step : 2 <= c_step c;
  ok_page : 1 <= c_page c;
  ok_ext : forall a b, c_ext c = Some (a, b) -> c_iend c < a
}.

(** Room in the address type: one growth step above the internal range, and twice
    the range for adding two usage counts. *)
Record cfg_room (c : cfg) : Prop := {
  room_step : c_iend c + 1 + c_step c <= c_tmax c;
  room_dbl : 2 * c_iend c <= c_tmax c
}.

(** data::LinksConstants::is_internal / is_external (external crate). *)
Definition is_internal (c : cfg) (i : N) : bool := (c_istart c <=? i) && (i <=? c_iend c).
Definition is_external (c : cfg) (i : N) : bool :=
  match c_ext c with Some (a, b) => (a <=? i) && (i <=? b) | None => false end.

(** ** Generic lemmas *)
Lemma run_handler_app H (h : rhandler H) l1 l2 s :
  run_handler h (l1 ++ l2) s =
  match run_handler h l1 s with
  | (s', Continue) => run_handler h l2 s'
  | (s', Break) => (s', Break)
  end.
Proof.
  revert s; induction l1 as [|x l1 IH]; intros s; simpl; [reflexivity|].
  destruct (h s x) as [s' []]; [apply IH|reflexivity].
Qed.

Lemma cadd_ok tmax a b : a + b <= tmax -> cadd tmax a b = Val (a + b).
Proof. intros; unfold cadd. destruct (N.leb_spec (a+b) tmax); [reflexivity|lia]. Qed.
Lemma csub_ok a b : b <= a -> csub a b = Val (a - b).
Proof. intros; unfold csub. destruct (N.leb_spec b a); [reflexivity|lia]. Qed.
Lemma ctry_ok tmax n : n <= tmax -> ctry tmax n = Val n.
Proof. intros; unfold ctry. destruct (N.leb_spec n tmax); [reflexivity|lia]. Qed.
Lemma rd_ok A len (c : N -> A) i : i < len -> rd len c i = Val (c i).
Proof. intros; unfold rd. destruct (N.ltb_spec i len); [reflexivity|lia]. Qed.
Lemma rdu_ok A len (c : N -> A) i : i < len -> rd_unchecked len c i = Val (c i).
Proof. intros; unfold rd_unchecked. destruct (N.ltb_spec i len); [reflexivity|lia]. Qed.

(** Indices 1..=n in ascending order. *)
Definition range1 (n : N) : list N := map N.of_nat (seq 1 (N.to_nat n)).

Lemma in_range1 n i : In i (range1 n) <-> 1 <= i <= n.
Proof.
  unfold range1. rewrite in_map_iff. split.
  - intros (k & <- & H). apply in_seq in H. lia.
  - intros H. exists (N.to_nat i). split; [lia|]. apply in_seq. lia.
Qed.

Lemma nodup_range1 n : NoDup (range1 n).
Proof.
  unfold range1. apply FinFun.Injective_map_NoDup; [|apply seq_NoDup].
  intros a b H. lia.
Qed.

Lemma length_range1 n : length (range1 n) = N.to_nat n.
Proof. unfold range1. now rewrite map_length, seq_length. Qed.

Lemma range1_succ n : range1 (n + 1) = range1 n ++ [n + 1].
Proof.
  unfold range1. replace (N.to_nat (n + 1)) with (N.to_nat n + 1)%nat by lia.
  rewrite seq_app, map_app. cbn [seq map]. do 2 f_equal. lia.
Qed.

Lemma NoDup_app_inv {A} (l1 l2 : list A) :
  NoDup (l1 ++ l2) -> NoDup l1 /\ NoDup l2 /\ (forall x, In x l1 -> In x l2 -> False).
Proof.
  induction l1 as [|a l1 IH]; simpl; intros H.
  - repeat split; auto; constructor.
  - inversion H as [|? ? H1 H2]; subst. destruct (IH H2) as (K1 & K2 & K3).
    repeat split; auto.
    + constructor; auto. intros K; apply H1, in_or_app; auto.
    + intros x [->|Hx] Hy; [apply H1, in_or_app; auto|eauto].
Qed.

Lemma NoDup_app_intro {A} (l1 l2 : list A) :
  NoDup l1 -> NoDup l2 -> (forall x, In x l1 -> In x l2 -> False) -> NoDup (l1 ++ l2).
Proof.
  induction l1 as [|a l1 IH]; simpl; intros H1 H2 H3; auto.
  inversion H1; subst. constructor.
  - rewrite in_app_iff. intros [K|K]; [auto|eapply H3; eauto].
  - apply IH; auto. intros; eapply H3; eauto.
Qed.

Lemma qget_0 a l : qget (a :: l) 0 = Val a.
Proof. reflexivity. Qed.
Lemma qget_1 a b l : qget (a :: b :: l) 1 = Val b.
Proof. reflexivity. Qed.
Lemma qget_2 a b c l : qget (a :: b :: c :: l) 2 = Val c.
Proof. reflexivity. Qed.
