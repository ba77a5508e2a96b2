(** Model of the texts printed for links, pairs and errors, and that they are unambiguous.
    doublets/src/data/link.rs:79-83, data/doublet.rs:17-21, data/error.rs:5-24.
    Addresses are unsigned integers; their Display, of the Rust library, is decimal without
    leading zeroes. *)
From Coq Require Import NArith List Bool Ascii String DecimalString DecimalN DecimalFacts.
From Verif Require Import Base.
Import ListNotations.
Open Scope string_scope.

(** Display of an unsigned integer. *)
Definition show_N (n : N) : string := NilEmpty.string_of_uint (N.to_uint n).

(** Debug for Link, link.rs:79-83 *)
Definition show_link (l : link) : string :=
  show_N (l_index l) ++ ": " ++ show_N (l_source l) ++ " " ++ show_N (l_target l).
(** Display for Doublet, doublet.rs:17-21 *)
Definition show_doublet (s t : N) : string := show_N s ++ "->" ++ show_N t.

(** Debug for a vector, of the Rust library: the elements in brackets, separated by ", ". *)
Fixpoint show_rest (l : list link) : string :=
  match l with
  | [] => "]"
  | x :: l' => ", " ++ show_link x ++ show_rest l'
  end.
Definition show_links (l : list link) : string :=
  match l with
  | [] => "[]"
  | x :: l' => "[" ++ show_link x ++ show_rest l'
  end.

(** The errors of error.rs:5-24.  The last two carry another error, known by its text. *)
Inductive shown_error :=
| SNotExists (i : N)
| SHasUsages (l : list link)
| SAlreadyExists (s t : N)
| SLimitReached (i : N)
| SAllocFailed (text : string)
| SOther (text : string).
Definition show_error (e : shown_error) : string :=
  match e with
  | SNotExists i => "link " ++ show_N i ++ " does not exist."
  | SHasUsages l => "link " ++ show_links l ++ " has dependencies"
  | SAlreadyExists s t => "link " ++ show_doublet s t ++ " already exists"
  | SLimitReached i => "limit for the number of links in the storage has been reached: " ++ show_N i
  | SAllocFailed text => "unable to allocate memory for links storage: `" ++ text ++ "`"
  | SOther text => "other internal error: `" ++ text ++ "`"
  end.

(** ** Proofs *)
Definition is_digit (c : ascii) : bool := let n := nat_of_ascii c in Nat.leb 48 n && Nat.leb n 57.
Fixpoint digits (s : string) : bool :=
  match s with EmptyString => true | String c s' => is_digit c && digits s' end.
(** The text does not go on with a digit. *)
Definition stops (s : string) : bool := match s with EmptyString => true | String c _ => negb (is_digit c) end.

Lemma digits_uint d : digits (NilEmpty.string_of_uint d) = true.
Proof. induction d; cbn; auto. Qed.
Lemma show_N_digits n : digits (show_N n) = true.
Proof. apply digits_uint. Qed.
Lemma show_N_inj n m : show_N n = show_N m -> n = m.
Proof.
  unfold show_N. intros E. apply DecimalN.Unsigned.to_uint_inj.
  apply (f_equal NilEmpty.uint_of_string) in E. rewrite !NilEmpty.usu in E. congruence.
Qed.
Lemma digits_app u : forall v r r', digits u = true -> digits v = true -> stops r = true -> stops r' = true ->
  u ++ r = v ++ r' -> u = v /\ r = r'.
Proof.
  induction u as [|c u IH]; intros [|c' v] r r' D D' S S' E; cbn in *.
  - auto.
  - subst r. cbn in S. apply andb_true_iff in D' as [D' _]. rewrite D' in S. discriminate.
  - subst r'. cbn in S'. apply andb_true_iff in D as [D _]. rewrite D in S'. discriminate.
  - injection E as -> E. apply andb_true_iff in D as [_ D], D' as [_ D']. destruct (IH _ _ _ D D' S S' E) as [-> ->]. auto.
Qed.
Lemma show_N_app n m r r' : stops r = true -> stops r' = true -> show_N n ++ r = show_N m ++ r' -> n = m /\ r = r'.
Proof.
  intros S S' E. destruct (digits_app _ _ _ _ (show_N_digits n) (show_N_digits m) S S' E) as [E1 E2].
  split; auto. now apply show_N_inj.
Qed.
Lemma app_assoc_s (a b c : string) : (a ++ b) ++ c = a ++ b ++ c.
Proof. induction a as [|x a IH]; cbn; congruence. Qed.
Lemma app_nil_s (a : string) : a ++ "" = a.
Proof. induction a as [|x a IH]; cbn; congruence. Qed.
Lemma app_inj_l (a b c : string) : a ++ b = a ++ c -> b = c.
Proof. induction a as [|x a IH]; cbn; [auto|]. intros [= E]. auto. Qed.
Lemma app_inj_r (a b : string) c : a ++ String c "" = b ++ String c "" -> a = b.
Proof.
  revert b. induction a as [|x a IH]; intros [|y b] E; cbn in E; auto.
  - injection E as _ E. destruct b; discriminate.
  - injection E as _ E. destruct a; discriminate.
  - injection E as -> E. f_equal. auto.
Qed.

Lemma show_link_app l k r r' : stops r = true -> stops r' = true -> show_link l ++ r = show_link k ++ r' -> l = k /\ r = r'.
Proof.
  destruct l as [i s t], k as [i' s' t']. unfold show_link. cbn [l_index l_source l_target]. rewrite !app_assoc_s.
  intros S S' E. apply show_N_app in E as [-> E]; auto. apply app_inj_l in E.
  apply show_N_app in E as [-> E]; auto. apply app_inj_l in E. apply show_N_app in E as [-> ->]; auto.
Qed.

Lemma show_rest_app l : forall k r r', stops r = true -> stops r' = true -> show_rest l ++ r = show_rest k ++ r' -> l = k /\ r = r'.
Proof.
  assert (ST : forall l r, stops (show_rest l ++ r) = true) by (intros [|]; reflexivity).
  induction l as [|x l IH]; intros [|y k] r r' S S' E; cbn [show_rest] in E; rewrite ?app_assoc_s in E.
  - injection E as ->. auto.
  - discriminate.
  - discriminate.
  - apply app_inj_l in E. apply show_link_app in E as [-> E]; auto. destruct (IH _ _ _ S S' E) as [-> ->]. auto.
Qed.
Lemma digit_not_bracket n r r' : show_N n ++ r <> "]" ++ r'.
Proof.
  pose proof (show_N_digits n) as D. intros E. destruct (show_N n) as [|c s] eqn:EN.
  - unfold show_N in EN. destruct n as [|p]; [discriminate|].
    apply (f_equal NilEmpty.uint_of_string) in EN. rewrite NilEmpty.usu in EN.
    apply (f_equal (option_map N.of_uint)) in EN. cbn [option_map] in EN. rewrite DecimalN.Unsigned.of_to in EN. discriminate.
  - cbn in E. injection E as -> _. discriminate.
Qed.
Lemma show_links_app l k r r' : stops r = true -> stops r' = true -> show_links l ++ r = show_links k ++ r' -> l = k /\ r = r'.
Proof.
  intros S S'. destruct l as [|x l], k as [|y k]; unfold show_links; rewrite ?app_assoc_s; intros E.
  - injection E as ->. auto.
  - exfalso. apply (app_inj_l "[" ("]" ++ r)) in E. unfold show_link in E. rewrite !app_assoc_s in E. symmetry in E. eapply digit_not_bracket; eauto.
  - exfalso. apply (app_inj_l "[" _ ("]" ++ r')) in E. unfold show_link in E. rewrite !app_assoc_s in E. eapply digit_not_bracket; eauto.
  - apply app_inj_l in E. apply show_link_app in E as [-> E]; try (destruct l; reflexivity); try (destruct k; reflexivity).
    apply show_rest_app in E as [-> ->]; auto.
Qed.

(** * C65 *)
Lemma L_C65_links l k : show_link l = show_link k -> l = k.
Proof.
  intros E. rewrite <- (app_nil_s (show_link l)), <- (app_nil_s (show_link k)) in E.
  now apply show_link_app in E as [-> _].
Qed.
Lemma L_C65_doublets s t s' t' : show_doublet s t = show_doublet s' t' -> s = s' /\ t = t'.
Proof.
  unfold show_doublet. intros E. apply show_N_app in E as [-> E]; auto. apply app_inj_l in E. split; auto. now apply show_N_inj.
Qed.
Lemma digit_not n r c r' : is_digit c = false -> show_N n ++ r <> String c r'.
Proof.
  intros C E. pose proof (show_N_digits n) as D. destruct (show_N n) as [|c' s] eqn:EN.
  - unfold show_N in EN. apply (f_equal NilEmpty.uint_of_string) in EN. rewrite NilEmpty.usu in EN. cbn in EN.
    destruct n as [|p]; [discriminate|]. apply (f_equal (option_map N.of_uint)) in EN. cbn [option_map] in EN.
    rewrite DecimalN.Unsigned.of_to in EN. discriminate.
  - cbn in *. injection E as -> _. rewrite C in D. discriminate.
Qed.
Lemma show_links_head l : exists r, show_links l = String "["%char r.
Proof. destruct l; eexists; reflexivity. Qed.
(** Different errors print differently. *)
Lemma L_C65_errors e f : show_error e = show_error f -> e = f.
Proof.
  assert (NL : forall i r l r', show_N i ++ r <> show_links l ++ r').
  { intros i r l r' E. destruct (show_links_head l) as (q & Q). rewrite Q in E. now apply digit_not in E. }
  assert (ND : forall i s t, show_N i ++ " does not exist." <> show_doublet s t ++ " already exists").
  { intros i s t E. unfold show_doublet in E. rewrite !app_assoc_s in E. apply show_N_app in E as [_ E]; auto. discriminate. }
  destruct e as [i|l|s t|i|x|x], f as [i'|l'|s' t'|i'|y|y]; cbn [show_error]; intros E; try discriminate E.
  - apply app_inj_l in E. apply show_N_app in E as [-> _]; auto.
  - apply app_inj_l in E. now apply NL in E.
  - apply app_inj_l in E. now apply ND in E.
  - apply app_inj_l in E. symmetry in E. now apply NL in E.
  - apply app_inj_l in E. apply show_links_app in E as [-> _]; auto.
  - apply app_inj_l in E. symmetry in E. unfold show_doublet in E. rewrite !app_assoc_s in E. now apply NL in E.
  - apply app_inj_l in E. symmetry in E. now apply ND in E.
  - apply app_inj_l in E. unfold show_doublet in E. rewrite !app_assoc_s in E. now apply NL in E.
  - apply app_inj_l in E. unfold show_doublet in E. rewrite !app_assoc_s in E. apply show_N_app in E as [-> E]; auto.
    apply app_inj_l in E. apply show_N_app in E as [-> _]; auto.
  - apply app_inj_l in E. now apply show_N_inj in E as ->.
  - apply app_inj_l in E. now apply app_inj_r in E as ->.
  - apply app_inj_l in E. now apply app_inj_r in E as ->.
Qed.
Lemma L_C65_nonvacuous :
  show_link (mkLink 10 2 300) = "10: 2 300" /\ show_doublet 12 0 = "12->0" /\
  show_error (SHasUsages [mkLink 1 2 3; mkLink 4 5 6]) = "link [1: 2 3, 4: 5 6] has dependencies" /\
  show_error (SAlreadyExists 1 2) = "link 1->2 already exists" /\ show_error (SNotExists 1) = "link 1 does not exist.".
Proof. vm_compute. auto. Qed.
