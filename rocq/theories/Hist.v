(** Every history of an implementation stays in the abstract store, and the stack of
    holes is determined by the deletions. *)
From Coq Require Import NArith List Bool Lia Permutation Sorted.
From Verif Require Import Base Spec Iface Obs.
Import ListNotations.
Open Scope N_scope.

(** ** The stack of holes against the list of deletions *)
Definition inb (l : list N) (x : N) : bool := if in_dec N.eq_dec x l then true else false.

Lemma inb_in l x : inb l x = true <-> In x l.
Proof. unfold inb. destruct (in_dec N.eq_dec x l); split; auto; congruence. Qed.

(** Every suffix of the hole stack starts with the most recently deleted of its members. *)
Fixpoint dels_ok (fl d : list N) : Prop :=
  match fl with
  | [] => True
  | f :: rest => find (inb (f :: rest)) d = Some f /\ dels_ok rest d
  end.

Lemma find_ext {A} (f g : A -> bool) l : (forall x, f x = g x) -> find f l = find g l.
Proof. intros E. induction l as [|x l IH]; simpl; [reflexivity|]. rewrite E. destruct (g x); auto. Qed.

Lemma dels_ok_cons i fl d : ~ In i fl -> dels_ok fl d -> dels_ok fl (i :: d).
Proof.
  induction fl as [|f fl IH]; intros NI; [auto|]. cbn [dels_ok find]. intros [F D]. split.
  - assert (inb (f :: fl) i = false) as ->; auto. destruct (inb (f :: fl) i) eqn:E; auto.
    apply inb_in in E. contradiction.
  - apply IH; auto. intros K. apply NI. now right.
Qed.

Lemma find_sub (p q : N -> bool) d f : (forall x, q x = true -> p x = true) -> q f = true ->
  find p d = Some f -> find q d = Some f.
Proof.
  intros SUB Q. induction d as [|x d IH]; simpl; [congruence|].
  destruct (p x) eqn:P; [intros [= ->]; now rewrite Q|].
  destruct (q x) eqn:E; [apply SUB in E; congruence|]. exact IH.
Qed.

Lemma dels_ok_filter g fl d : dels_ok fl d -> dels_ok (filter g fl) d.
Proof.
  induction fl as [|f fl IH]; [auto|]. cbn [dels_ok filter]. intros [F D].
  destruct (g f) eqn:G; [|auto]. cbn [dels_ok]. split; auto.
  eapply find_sub; [| |exact F].
  - intros x K. apply inb_in in K. apply inb_in. destruct K as [->|K]; [now left|].
    right. apply filter_In in K. tauto.
  - apply inb_in. now left.
Qed.

Lemma dels_ok_hd fl d : dels_ok fl d -> find (inb fl) d = hd_error fl.
Proof.
  destruct fl as [|f fl]; cbn [dels_ok hd_error]; [|tauto]. intros _.
  induction d as [|x d IH]; simpl; auto.
Qed.

Section Hist.
  Variable cf : cfg.
  Variable sp : store_spec.
  Context {S : Type}.
  Variable I : LinksI S.
  Variable R : S -> astate -> Prop.
  Variable start : S -> Prop.
  Variable reopen : S -> S -> Prop.
  Variable okU : S -> N -> N -> N -> Prop.
  Variable okD : S -> N -> Prop.

  Hypothesis IOK : links_ok cf sp I R.
  Hypothesis START : forall st, start st -> R st a_empty.
  Hypothesis REOPEN : forall st st' a, R st a -> reopen st st' -> R st' a.
  Hypothesis OKU : forall st a i s t, R st a -> a_map a i <> None -> okU st i s t -> sp_update sp a i s t.
  Hypothesis OKD : forall st a i, R st a -> a_map a i <> None -> okD st i -> sp_delete sp a i.
  Variable okC : S -> S -> Prop.
  (** create preserves the representation whenever it returns, whatever room there is *)
  Hypothesis CREATE : forall st a H (h : whandler H) q x st' x' r, R st a ->
    li_create I H h q st x = Val (st', x', r) -> okC st st' -> R st' a \/ R st' (a_create a).

  Theorem histc_inv st d : histc I start reopen okU okD okC st d -> exists a, R st a /\ dels_ok (a_free a) d.
  Proof.
    induction 1 as [st K|st d H h q x st' x' r _ (a & HR & D) E OC|
      st d H h q ch i s t x st' x' r _ (a & HR & D) Q1 Q2 Q3 OK E|
      st d H h q i x st' x' f _ (a & HR & D) Q OK E|st d H h q i x st' x' e _ (a & HR & D) Q OK E|
      st d st' _ (a & HR & D) K].
    - exists a_empty. split; [auto|exact Logic.I].
    - destruct (CREATE _ _ _ _ _ _ _ _ _ HR E OC) as [R'|R']; [exists a; auto|].
      exists (a_create a). split; auto. unfold a_create. destruct (a_free a) as [|f fl]; [exact Logic.I|]. apply D.
    - destruct (a_map a i) as [[s0 t0]|] eqn:M.
      + assert (NN : a_map a i <> None) by congruence.
        destruct (lo_update _ _ _ _ IOK _ _ _ _ _ _ _ HR Q1 Q2 Q3 NN (OKU _ _ _ _ _ HR NN OK)) as (st2 & b & R2 & C).
        rewrite C in E. injection E as <- _ _. exists (a_update a i s t). auto.
      + rewrite (lo_update_none _ _ _ _ IOK _ _ _ _ _ _ _ HR Q1 Q2 Q3 M) in E. injection E as <- _ _.
        exists a. auto.
    - destruct (a_map a i) as [[s0 t0]|] eqn:M.
      + assert (NN : a_map a i <> None) by congruence.
        destruct (lo_delete _ _ _ _ IOK _ _ _ _ _ _ HR Q M (OKD _ _ _ HR NN OK)) as (st2 & R2 & C).
        rewrite C in E. injection E as <- _ _. exists (a_delete a i). split; auto.
        pose proof (lo_wf _ _ _ _ IOK _ _ HR) as W. pose proof (awf_some _ _ _ W M) as [_ NF].
        apply (dels_ok_cons i) in D; auto.
        unfold a_delete. destruct (i <? a_top a); cbn [a_free]; [|now apply dels_ok_filter].
        split; auto. cbn [find]. assert (inb (i :: a_free a) i = true) as -> by (apply inb_in; now left).
        reflexivity.
      + rewrite (lo_delete_none _ _ _ _ IOK _ _ _ _ HR Q M) in E. discriminate.
    - destruct (a_map a i) as [[s0 t0]|] eqn:M.
      + assert (NN : a_map a i <> None) by congruence.
        destruct (lo_delete _ _ _ _ IOK _ _ _ _ _ _ HR Q M (OKD _ _ _ HR NN OK)) as (st2 & R2 & C).
        rewrite C in E. discriminate.
      + rewrite (lo_delete_none _ _ _ _ IOK _ _ _ _ HR Q M) in E. injection E as <- _ _. exists a. auto.
    - exists a. eauto.
  Qed.
End Hist.

Lemma hist_histc {S} (I : LinksI S) start reopen okU okD st d :
  hist I start reopen okU okD st d -> histc I start reopen okU okD (fun _ _ => True) st d.
Proof.
  induction 1.
  - now apply histc_start.
  - eapply histc_create; eauto.
  - eapply histc_update; eauto.
  - eapply histc_delete; eauto.
  - eapply histc_delete_err; eauto.
  - eapply histc_reopen; eauto.
Qed.

Theorem hist_inv cf sp {S} (I : LinksI S) R (start : S -> Prop) (reopen : S -> S -> Prop)
    (okU : S -> N -> N -> N -> Prop) (okD : S -> N -> Prop) :
  links_ok cf sp I R -> (forall st, start st -> R st a_empty) ->
  (forall st st' a, R st a -> reopen st st' -> R st' a) ->
  (forall st a i s t, R st a -> a_map a i <> None -> okU st i s t -> sp_update sp a i s t) ->
  (forall st a i, R st a -> a_map a i <> None -> okD st i -> sp_delete sp a i) ->
  (forall st a H (h : whandler H) q x st' x' r, R st a ->
    li_create I H h q st x = Val (st', x', r) -> R st' a \/ R st' (a_create a)) ->
  forall st d, hist I start reopen okU okD st d -> exists a, R st a /\ dels_ok (a_free a) d.
Proof.
  intros A1 A2 A3 A4 A5 A6 st d HH. apply hist_histc in HH.
  refine (histc_inv cf sp I R start reopen okU okD A1 A2 A3 A4 A5 (fun _ _ => True) _ st d HH).
  intros. eapply A6; eauto.
Qed.
