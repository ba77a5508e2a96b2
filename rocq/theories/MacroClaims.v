(** Proofs of the claims about the procedural macros (C61, C62). *)
From Coq Require Import NArith Arith List Bool String Ascii Lia.
From Verif Require Import Base Macros.
Import ListNotations.
Open Scope string_scope.

(** ** Specification *)
(** The type [t] at T := to.  A path means the parameter only if it starts with it; later
    segments are members of something else. *)
Fixpoint at_type (T to : string) (t : rty) : rty :=
  match t with
  | RArray e n => RArray (at_type T to e) n
  | RPath p => RPath (at_path T to true p)
  | RPtr m e => RPtr m (at_type T to e)
  | RRef m e => RRef m (at_type T to e)
  | ROther s => ROther s
  end
with at_path (T to : string) (head : bool) (p : rpath) : rpath :=
  match p with
  | PNil => PNil
  | PCons id a p' => PCons (if head && (id =? T) then to else id) (at_args T to a) (at_path T to false p')
  end
with at_args (T to : string) (a : rargs) : rargs :=
  match a with ANone => ANone | AAngle l => AAngle (at_gens T to l) | AParen s => AParen s end
with at_gens (T to : string) (l : rgens) : rgens :=
  match l with GNil => GNil | GType t l' => GType (at_type T to t) (at_gens T to l') | GOther s l' => GOther s (at_gens T to l') end.

(** Types made of paths, pointers and references to types of this kind. *)
Fixpoint supported (t : rty) : Prop :=
  match t with
  | RArray e _ => supported e
  | RPath p => supported_path p
  | RPtr _ e | RRef _ e => supported e
  | ROther _ => False
  end
with supported_path (p : rpath) : Prop :=
  match p with PNil => True | PCons _ a p' => supported_args a /\ supported_path p' end
with supported_args (a : rargs) : Prop :=
  match a with ANone => True | AAngle l => supported_gens l | AParen _ => False end
with supported_gens (l : rgens) : Prop :=
  match l with GNil => True | GType t l' => supported t /\ supported_gens l' | GOther _ _ => False end.

(** No arrays, and the name of the parameter only at the start of a path. *)
Fixpoint no_array (T : string) (t : rty) : Prop :=
  match t with
  | RArray _ _ => False
  | RPath p => no_array_path T true p
  | RPtr _ e | RRef _ e => no_array T e
  | ROther _ => True
  end
with no_array_path (T : string) (head : bool) (p : rpath) : Prop :=
  match p with PNil => True | PCons id a p' => (head = false -> id <> T) /\ no_array_args T a /\ no_array_path T false p' end
with no_array_args (T : string) (a : rargs) : Prop :=
  match a with ANone => True | AAngle l => no_array_gens T l | AParen _ => True end
with no_array_gens (T : string) (l : rgens) : Prop :=
  match l with GNil => True | GType t l' => no_array T t /\ no_array_gens T l' | GOther _ l' => no_array_gens T l' end.

Definition integer_types : list string := ["i8"; "u8"; "i16"; "u16"; "i32"; "u32"; "i64"; "u64"].

(** ** Types *)
Lemma from_to_at T to :
  (forall t t', ty_from_to T to t = Val t' -> no_array T t -> t' = at_type T to t) /\
  (forall p head p', path_from_to T to p = Val p' -> no_array_path T head p -> p' = at_path T to head p) /\
  (forall a a', args_from_to T to a = Val a' -> no_array_args T a -> a' = at_args T to a) /\
  (forall l l', gens_from_to T to l = Val l' -> no_array_gens T l -> l' = at_gens T to l).
Proof.
  apply rty_mutind; cbn.
  - contradiction.
  - intros p IH t' E N. destruct (path_from_to T to p); try discriminate. cbn in E. injection E as <-. f_equal. now apply IH.
  - intros m e IH t' E N. destruct (ty_from_to T to e); try discriminate. cbn in E. injection E as <-. f_equal. now apply IH.
  - intros m e IH t' E N. destruct (ty_from_to T to e); try discriminate. cbn in E. injection E as <-. f_equal. now apply IH.
  - discriminate.
  - intros head p' E _. now injection E as <-.
  - intros id a IHa p IHp head p' E (N1 & N2 & N3).
    destruct (args_from_to T to a); try discriminate. cbn in E. destruct (path_from_to T to p); try discriminate. injection E as <-.
    f_equal; [|now apply IHa|now apply IHp].
    destruct head; cbn [andb]; auto. destruct (String.eqb_spec id T); auto. now apply N1 in e.
  - intros a' E _. now injection E as <-.
  - intros l IH a' E N. destruct (gens_from_to T to l); try discriminate. cbn in E. injection E as <-. f_equal. now apply IH.
  - discriminate.
  - intros l' E _. now injection E as <-.
  - intros t IHt l IHl l' E [N1 N2]. destruct (ty_from_to T to t); try discriminate. cbn in E.
    destruct (gens_from_to T to l); try discriminate. cbn in E. injection E as <-. f_equal; [now apply IHt|now apply IHl].
  - discriminate.
Qed.

Definition defined {A} (m : out A) : Prop := exists v, m = Val v.
Lemma defined_val {A} (v : A) : defined (Val v).
Proof. now exists v. Qed.
Lemma defined_bind {A B} (m : out A) (f : A -> B) : defined (let* x := m in Val (f x)) <-> defined m.
Proof. destruct m; cbn; split; intros [v E]; try discriminate; eexists; eauto. Qed.
Lemma defined_bind2 {A B C} (m : out A) (n : out B) (f : A -> B -> C) :
  defined (let* x := m in let* y := n in Val (f x y)) <-> defined m /\ defined n.
Proof.
  split.
  - intros [v E]. destruct m; try discriminate. destruct n; try discriminate. split; eexists; eauto.
  - intros [[x ->] [y ->]]. cbn. eexists; eauto.
Qed.
Lemma from_to_supported T to :
  (forall t, defined (ty_from_to T to t) <-> supported t) /\
  (forall p, defined (path_from_to T to p) <-> supported_path p) /\
  (forall a, defined (args_from_to T to a) <-> supported_args a) /\
  (forall l, defined (gens_from_to T to l) <-> supported_gens l).
Proof.
  assert (P : forall A, ~ defined (@Panic A)) by (intros A [v E]; discriminate).
  apply rty_mutind; cbn; try (split; [intros; exact Logic.I|intros; apply defined_val]); try (intros; split; [apply P|contradiction]).
  - auto.
  - intros p IH. rewrite defined_bind. exact IH.
  - intros m e IH. rewrite defined_bind. exact IH.
  - intros m e IH. rewrite defined_bind. exact IH.
  - intros id a IHa p IHp. rewrite <- IHa, <- IHp. apply (defined_bind2 (args_from_to T to a) (path_from_to T to p)).
  - intros l IH. rewrite defined_bind. exact IH.
  - intros t IHt l IHl. rewrite <- IHt, <- IHl. apply (defined_bind2 (ty_from_to T to t) (gens_from_to T to l)).
Qed.

(** ** Names *)
Lemma csharp_defined t : defined (csharp_convention t) <-> In t integer_types.
Proof.
  unfold csharp_convention, integer_types. cbn [In].
  repeat match goal with |- context [t =? ?k] => destruct (String.eqb_spec t k) as [->|?] end;
    split; try (intros _; tauto); try (intros _; apply defined_val).
  - intros [v E]; discriminate.
  - intros; intuition congruence.
Qed.
Lemma csharp_inj t t' n : csharp_convention t = Val n -> csharp_convention t' = Val n -> t = t'.
Proof.
  intros E E'.
  assert (I : In t integer_types) by (apply csharp_defined; eexists; eauto).
  assert (I' : In t' integer_types) by (apply csharp_defined; eexists; eauto).
  cbn in I, I'. decompose [or] I; decompose [or] I'; subst; try contradiction; auto; cbn in E, E'; congruence.
Qed.

Lemma replace_none p s : count_star p = 0%nat -> replace_star p s = p.
Proof.
  induction p as [|c p IH]; cbn; auto. destruct (Ascii.eqb c star); [discriminate|]. intros E. now rewrite IH.
Qed.
Lemma one_star p : count_star p = 1%nat -> exists pre post, count_star pre = 0%nat /\ count_star post = 0%nat /\
  p = pre ++ "*" ++ post /\ forall s, replace_star p s = pre ++ s ++ post.
Proof.
  induction p as [|c p IH]; cbn; [discriminate|]. destruct (Ascii.eqb_spec c star) as [->|N].
  - intros E. injection E as E. exists "", p. cbn. repeat split; auto. intros s. now rewrite replace_none.
  - intros E. destruct (IH E) as (pre & post & P1 & P2 & P3 & P4). exists (String c pre), post. cbn.
    destruct (Ascii.eqb_spec c star); [contradiction|]. repeat split; auto; [now rewrite P3|]. intros s. now rewrite P4.
Qed.
Lemma length_app s t : String.length (s ++ t) = (String.length s + String.length t)%nat.
Proof. induction s; cbn; auto. Qed.
Lemma app_inj_l p s t : p ++ s = p ++ t -> s = t.
Proof. induction p; cbn; auto. intros E. injection E as E. auto. Qed.
Lemma app_inj_r s t p : s ++ p = t ++ p -> s = t.
Proof.
  revert t. induction s as [|c s IH]; intros [|c' t] E; cbn in E; auto.
  - apply (f_equal String.length) in E. cbn in E. rewrite length_app in E. lia.
  - apply (f_equal String.length) in E. cbn in E. rewrite length_app in E. lia.
  - injection E as -> E. f_equal. auto.
Qed.

Lemma forall2_impl {A B} (P Q : A -> B -> Prop) l m : (forall a b, P a b -> Q a b) -> Forall2 P l m -> Forall2 Q l m.
Proof. intros PQ F. induction F; constructor; auto. Qed.
Lemma omap_forall2 {A B} (f : A -> out B) l m : omap f l = Val m <-> Forall2 (fun a b => f a = Val b) l m.
Proof.
  revert m. induction l as [|a l IH]; intros m; cbn.
  - split; [intros E; injection E as <-; constructor|intros F; inversion F; auto].
  - destruct (f a) as [b| | |] eqn:E; cbn.
    + destruct (omap f l) as [m'| | |] eqn:E'; cbn.
      * split; [intros K; injection K as <-; constructor; [auto|apply IH; auto]|].
        intros F. inversion F; subst. apply IH in H3. congruence.
      * split; [discriminate|]. intros F. inversion F; subst. apply IH in H3. discriminate.
      * split; [discriminate|]. intros F. inversion F; subst. apply IH in H3. discriminate.
      * split; [discriminate|]. intros F. inversion F; subst. apply IH in H3. discriminate.
    + split; [discriminate|]. intros F. inversion F; congruence.
    + split; [discriminate|]. intros F. inversion F; congruence.
    + split; [discriminate|]. intros F. inversion F; congruence.
Qed.
Lemma omap_defined {A B} (f : A -> out B) l : defined (omap f l) <-> Forall (fun a => defined (f a)) l.
Proof.
  induction l as [|a l IH]; cbn; [split; [constructor|intros; apply defined_val]|].
  rewrite (defined_bind2 (f a) (omap f l)), IH. split; [intros []; constructor; auto|intros F; inversion F; auto].
Qed.

(** What one exported function has to be. *)
Definition typed_params (T to : string) (ps : list rparam) (xs : list (string * rty)) : Prop :=
  Forall2 (fun p x => exists pat t, p = Typed pat t /\ x = (pat, at_type T to t)) ps xs.
Definition faithful_params (T : string) (f : rfn) : Prop :=
  (forall pat t, In (Typed pat t) (f_params f) -> no_array T t) /\ (forall t, f_output f = Some t -> no_array T t).

Lemma generic_of_some f T : generic_of f = Val T <-> f_generics f = [GenType T].
Proof.
  unfold generic_of. destruct (f_generics f) as [|g [|g' l]]; cbn.
  - split; discriminate.
  - destruct g; cbn; split; try discriminate; intros E; injection E as ->; auto.
  - destruct g, g'; cbn; split; try discriminate; destruct (omap generic_name l); discriminate.
Qed.

(** * C61 *)
Lemma L_C61_exported_functions_partial m f T l : f_generics f = [GenType T] -> specialize_for m f = Val l -> faithful_params T f ->
  exists pre post, m_name m = pre ++ "*" ++ post /\
  Forall2 (fun ty x =>
    x_callee x = f_ident f /\ x_at x = ty /\ x_args x = map fst (x_params x) /\
    (exists n, csharp_convention ty = Val n /\ x_name x = pre ++ n ++ post) /\
    typed_params T ty (f_params f) (x_params x) /\
    x_output x = match f_output f with Some t => Some (at_type T ty t) | None => None end)
  (m_types m) l.
Proof.
  intros G E [FP FO]. unfold specialize_for in E. apply generic_of_some in G. rewrite G in E. cbn [obind] in E.
  destruct (PeanoNat.Nat.eqb_spec (count_star (m_name m)) 1) as [C|]; [|discriminate].
  destruct (one_star _ C) as (pre & post & _ & _ & P & R). exists pre, post. split; [exact P|].
  apply omap_forall2 in E. eapply forall2_impl; [|exact E]. cbn beta. intros ty x X. unfold specialize_one in X.
  destruct (csharp_convention ty) as [n| | |]; try discriminate. cbn [obind] in X.
  destruct (match f_output f with Some t => _ | None => _ end) as [o| | |] eqn:EO; try discriminate. cbn [obind] in X.
  destruct (omap (param_from_to T ty) (f_params f)) as [ps| | |] eqn:EP; try discriminate. cbn [obind] in X.
  injection X as <-. cbn [x_callee x_at x_args x_params x_name x_output].
  split; [auto|]. split; [auto|]. split; [auto|]. split; [exists n; auto|]. split.
  - apply omap_forall2 in EP. unfold typed_params. clear -EP FP. revert FP EP. generalize (f_params f) as l0.
    intros l0 FP EP. induction EP as [|p x l1 l2 PX EP IH]; constructor.
    + destruct p as [|pat t]; [discriminate|]. cbn in PX. destruct (ty_from_to T ty t) as [t'| | |] eqn:ET; try discriminate.
      cbn in PX. injection PX as <-. exists pat, t. split; auto. f_equal. apply (proj1 (from_to_at T ty)); auto. apply (FP pat). now left.
    + apply IH. intros pat t I. apply (FP pat). now right.
  - destruct (f_output f) as [t|]; [|now injection EO as <-].
    destruct (ty_from_to T ty t) as [t'| | |] eqn:ET; try discriminate. cbn in EO. injection EO as <-. f_equal.
    apply (proj1 (from_to_at T ty)); auto.
Qed.
(** Different types give different names. *)
Lemma L_C61_names_distinct m f l : specialize_for m f = Val l -> NoDup (m_types m) -> NoDup (map x_name l).
Proof.
  intros E. unfold specialize_for in E. destruct (generic_of f) as [T| | |]; try discriminate. cbn [obind] in E.
  destruct (PeanoNat.Nat.eqb_spec (count_star (m_name m)) 1) as [C|]; [|discriminate].
  destruct (one_star _ C) as (pre & post & _ & _ & P & R). apply omap_forall2 in E.
  assert (F : Forall2 (fun ty x => exists n, csharp_convention ty = Val n /\ x_name x = pre ++ n ++ post) (m_types m) l).
  { eapply forall2_impl; [|exact E]. cbn beta. intros ty x X. unfold specialize_one in X.
    destruct (csharp_convention ty) as [n| | |]; try discriminate. cbn [obind] in X.
    destruct (match f_output f with Some t => _ | None => _ end) as [o| | |]; try discriminate. cbn [obind] in X.
    destruct (omap (param_from_to T ty) (f_params f)) as [ps| | |]; try discriminate. cbn [obind] in X.
    injection X as <-. exists n. split; [reflexivity|]. cbn [x_name]. apply R. }
  clear -F. induction F as [|ty x tys xs (n & N & X) F IH]; intros D; cbn; [constructor|].
  inversion D as [|? ? NI D']; subst. constructor; [|auto]. intros I. apply in_map_iff in I as (x' & EX & I).
  apply NI. clear -F N X EX I. induction F as [|ty' y tys xs (n' & N' & X') F IH]; [contradiction|]. destruct I as [->|I].
  - left. rewrite X, X' in EX. apply app_inj_l, app_inj_r in EX. subst n'. symmetry. eapply csharp_inj; eauto.
  - right. auto.
Qed.
(** The macro expands exactly the items of this shape; on all others the build fails. *)
Lemma L_C61_expands_iff m f : (exists l, specialize_for m f = Val l) <->
  (exists T, f_generics f = [GenType T]) /\ count_star (m_name m) = 1%nat /\
  (m_types m = [] \/
   (forall ty, In ty (m_types m) -> In ty integer_types) /\
   (forall p, In p (f_params f) -> exists pat t, p = Typed pat t /\ supported t) /\
   (forall t, f_output f = Some t -> supported t)).
Proof.
  unfold specialize_for. split.
  - intros [l E]. destruct (generic_of f) as [T| | |] eqn:G; try discriminate. cbn [obind] in E.
    destruct (PeanoNat.Nat.eqb_spec (count_star (m_name m)) 1) as [C|]; [|discriminate].
    split; [exists T; now apply generic_of_some|]. split; [exact C|].
    assert (D : defined (omap (specialize_one f T (m_name m)) (m_types m))) by (eexists; eauto).
    apply omap_defined in D. destruct (m_types m) as [|t0 tys]; [now left|]. right.
    assert (K : forall ty, In ty (t0 :: tys) -> In ty integer_types /\
       (forall p, In p (f_params f) -> exists pat t, p = Typed pat t /\ supported t) /\ (forall t, f_output f = Some t -> supported t)).
    { intros ty I. rewrite Forall_forall in D. apply D in I as [x X]. unfold specialize_one in X.
      destruct (csharp_convention ty) as [n| | |] eqn:EC; try discriminate. cbn [obind] in X.
      destruct (match f_output f with Some t => _ | None => _ end) as [o| | |] eqn:EO; try discriminate. cbn [obind] in X.
      destruct (omap (param_from_to T ty) (f_params f)) as [ps| | |] eqn:EP; try discriminate.
      split; [apply csharp_defined; eexists; eauto|]. split.
      - intros p I. assert (D2 : defined (omap (param_from_to T ty) (f_params f))) by (eexists; eauto).
        apply omap_defined in D2. rewrite Forall_forall in D2. apply D2 in I as [y Y]. destruct p as [|pat t]; [discriminate|].
        exists pat, t. split; auto. cbn in Y. apply (from_to_supported T ty). destruct (ty_from_to T ty t); try discriminate. apply defined_val.
      - intros t ET. rewrite ET in EO. apply (from_to_supported T ty). destruct (ty_from_to T ty t); try discriminate. apply defined_val. }
    split; [intros ty I; now apply K|]. apply (K t0). now left.
  - intros ([T G] & C & K). apply generic_of_some in G. rewrite G. cbn [obind]. rewrite C. cbn [Nat.eqb].
    apply omap_defined. apply Forall_forall. intros ty I. destruct K as [K|(K1 & K2 & K3)]; [rewrite K in I; contradiction|].
    unfold specialize_one. destruct (proj2 (csharp_defined ty) (K1 _ I)) as [n ->]. cbn [obind].
    assert (O : defined (match f_output f with Some t => let* t' := ty_from_to T ty t in Val (Some t') | None => Val None end)).
    { destruct (f_output f) as [t|]; [|apply defined_val]. apply (defined_bind (ty_from_to T ty t) (@Some rty)).
      apply from_to_supported. now apply K3. }
    destruct O as [o ->]. cbn [obind].
    apply (defined_bind (omap (param_from_to T ty) (f_params f)) (fun ps => mkExp (replace_star (m_name m) n) ps o (f_ident f) ty (map fst ps))).
    apply omap_defined. apply Forall_forall. intros p PI. destruct (K2 _ PI) as (pat & t & -> & S). cbn [param_from_to].
    apply (defined_bind (ty_from_to T ty t) (fun t' => (pat, t'))). now apply from_to_supported.
Qed.
(** An array type loses its length: the exported function takes one element instead. *)
Lemma L_C61_array_lost T to e n t' : ty_from_to T to e = Val t' -> no_array T e ->
  ty_from_to T to (RArray e n) = Val (at_type T to e) /\ at_type T to e <> at_type T to (RArray e n).
Proof.
  intros E N. pose proof (proj1 (from_to_at T to) _ _ E N) as ->. split; [exact E|]. cbn [at_type].
  assert (SZ : exists sz : rty -> nat, forall x k, sz (RArray x k) = S (sz x)).
  { exists (fix sz t := match t with RArray x _ => S (sz x) | _ => O end). reflexivity. }
  destruct SZ as [sz SZ]. intros K. apply (f_equal sz) in K. rewrite SZ in K. lia.
Qed.

(** The annotated functions of doublets-ffi/src/lib.rs:147-383. *)
Definition ident (s : string) : rty := RPath (PCons s ANone PNil).
Definition gen1 (s t : string) : rty := RPath (PCons s (AAngle (GType (ident t) GNil)) PNil).
Definition void_ptr : rty := RPtr true (ident "c_void").
Definition char_ptr : rty := RPtr false (ident "c_char").
Definition const_ptr (t : string) : rty := RPtr false (ident t).
Definition four : list string := ["u8"; "u16"; "u32"; "u64"].
Definition ffi_fn (name pattern : string) (ps : list (string * rty)) (o : option rty) : margs * rfn :=
  (mkArgs four pattern, mkFn name [GenType "T"] (map (fun p => Typed (fst p) (snd p)) ps) o).
Definition ffi_library : list (margs * rfn) :=
  [ffi_fn "new_united_links" "*Links_New" [("path", char_ptr)] (Some void_ptr);
   ffi_fn "new_with_constants_united_links" "*Links_NewWithConstants" [("path", char_ptr); ("constants", gen1 "Constants" "T")] (Some void_ptr);
   ffi_fn "drop_united_links" "*Links_Drop" [("this", void_ptr)] None;
   ffi_fn "get_constants_united_links" "*Links_GetConstants" [("this", void_ptr)] (Some (gen1 "Constants" "T"));
   ffi_fn "create_united" "*Links_Create" [("this", void_ptr); ("query", const_ptr "T"); ("len", ident "usize"); ("callback", gen1 "CUDCallback" "T")] (Some (ident "T"));
   ffi_fn "smart_create_united" "*Links_SmartCreate" [("this", void_ptr)] (Some (ident "T"));
   ffi_fn "smart_update_united" "*Links_SmartUpdate" [("this", void_ptr); ("index", ident "T"); ("source", ident "T"); ("target", ident "T")] (Some (ident "T"));
   ffi_fn "each_united" "*Links_Each" [("this", void_ptr); ("query", const_ptr "T"); ("len", ident "usize"); ("callback", gen1 "EachCallback" "T")] (Some (ident "T"));
   ffi_fn "count_united" "*Links_Count" [("this", void_ptr); ("query", const_ptr "T"); ("len", ident "usize")] (Some (ident "T"));
   ffi_fn "update_united" "*Links_Update" [("this", void_ptr); ("restrictions", const_ptr "T"); ("len_r", ident "usize");
     ("substitutuion", const_ptr "T"); ("len_s", ident "usize"); ("callback", gen1 "CUDCallback" "T")] (Some (ident "T"));
   ffi_fn "delete_united" "*Links_Delete" [("this", void_ptr); ("query", const_ptr "T"); ("len", ident "usize"); ("callback", gen1 "CUDCallback" "T")] (Some (ident "T"))].

Definition expand_all (l : list (margs * rfn)) : out (list exported) :=
  let* xs := omap (fun p => specialize_for (fst p) (snd p)) l in Val (List.concat xs).
Definition distinct (l : list string) : bool :=
  (fix go l := match l with [] => true | s :: l' => negb (existsb (String.eqb s) l') && go l' end) l.
Lemma distinct_nodup l : distinct l = true -> NoDup l.
Proof.
  induction l as [|s l IH]; cbn; [constructor|]. intros E. apply andb_true_iff in E as [E1 E2]. constructor; auto.
  intros I. apply negb_true_iff in E1. assert (existsb (String.eqb s) l = true); [|congruence].
  apply existsb_exists. exists s. split; auto. apply String.eqb_refl.
Qed.
(** The interface expands, to 44 functions with different names, also different from the two
    written by hand (lib.rs:433, 449). *)
Lemma L_C61_library_names : exists l, expand_all ffi_library = Val l /\ List.length l = 44%nat /\
  NoDup ("setup_shared_logger" :: "init_fmt_logger" :: map x_name l) /\
  Forall (fun p => faithful_params "T" (snd p)) ffi_library.
Proof.
  destruct (expand_all ffi_library) as [l| | |] eqn:E; [|vm_compute in E; discriminate..].
  exists l. split; [reflexivity|]. vm_compute in E. injection E as <-. split; [reflexivity|]. split; [apply distinct_nodup; vm_compute; reflexivity|].
  apply Forall_forall. intros p I. unfold ffi_library in I. cbn [In] in I.
  repeat (destruct I as [<-|I]; [cbn [snd ffi_fn f_params f_output map fst]; split;
    [intros pat t J; cbn in J; repeat (destruct J as [J|J]; [injection J as <- <-; cbn; intuition discriminate|]); contradiction|
     intros t EO; try discriminate; injection EO as <-; cbn; intuition discriminate]|]).
  contradiction.
Qed.
(** The full statement fails for a parameter of an array type. *)
Lemma L_C61_array_refuted : exists m f l x, f_generics f = [GenType "T"] /\ specialize_for m f = Val l /\ In x l /\
  x_at x = "u32" /\ f_params f = [Typed "pair" (RArray (ident "T") 2)] /\ x_params x = [("pair", ident "u32")].
Proof.
  exists (mkArgs ["u32"] "*F"), (mkFn "f" [GenType "T"] [Typed "pair" (RArray (ident "T") 2)] None).
  eexists. eexists. split; [reflexivity|]. split; [reflexivity|]. split; [left; reflexivity|]. repeat split.
Qed.
Lemma L_C61_nonvacuous : exists m f l, f_generics f = [GenType "T"] /\ faithful_params "T" f /\ specialize_for m f = Val l /\
  NoDup (m_types m) /\ (exists x, In x l /\ x_name x = "UInt16Links_Create" /\ x_at x = "u16" /\ x_output x = Some (ident "u16") /\
  In ("callback", gen1 "CUDCallback" "u16") (x_params x)) /\
  ty_from_to "T" "u8" (RRef false (ident "T")) = Val (RRef false (ident "u8")) /\ no_array "T" (RRef false (ident "T")).
Proof.
  exists (mkArgs four "*Links_Create").
  exists (mkFn "create_united" [GenType "T"] [Typed "this" void_ptr; Typed "query" (const_ptr "T"); Typed "len" (ident "usize"); Typed "callback" (gen1 "CUDCallback" "T")] (Some (ident "T"))).
  eexists. split; [reflexivity|]. split.
  - split.
    + intros pat t I; cbn in I; repeat (destruct I as [I|I]; [injection I as <- <-; cbn; intuition discriminate|]); contradiction.
    + intros t EO; injection EO as <-; cbn; intuition discriminate.
  - split; [reflexivity|]. split; [apply distinct_nodup; vm_compute; reflexivity|]. split.
    + eexists. split; [right; left; reflexivity|]. repeat split. cbn. tauto.
    + split; [reflexivity|]. cbn. intuition discriminate.
Qed.

(** * C62 *)
(** Expressions and their types, if the constructor [D::new] of every decorator D takes any store of
    type t to a store of type D<pattern with t>. *)
Inductive has_type (pat : toks) (e0 t0 : toks) : toks -> toks -> Prop :=
| HT_base : has_type pat e0 t0 e0 t0
| HT_new D e t : has_type pat e0 t0 e t -> has_type pat e0 t0 (D :: "::" :: "new" :: "(" :: e ++ [")"])%list (D :: fill pat t).
Lemma nest_type pat e0 t0 l : forall e t, has_type pat e0 t0 e t ->
  has_type pat e0 t0 (fold_left (fun e name => (name :: "::" :: "new" :: "(" :: e ++ [")"])%list) l e) (fold_left (fun ty name => name :: fill pat ty) l t).
Proof. induction l as [|D l IH]; intros e t H; cbn; auto. apply IH. now constructor. Qed.
Lemma L_C62_value_has_type env pat e0 t0 : has_type pat e0 t0 (env_value env e0) (env_type env pat t0).
Proof. unfold env_value, env_type. apply nest_type. constructor. Qed.
(** The first name in the variable is the outermost decorator. *)
Lemma L_C62_first_is_outermost env D names pat e0 t0 : split_whitespace env = D :: names ->
  exists e t, has_type pat e0 t0 e t /\
    env_value (Some env) e0 = (D :: "::" :: "new" :: "(" :: e ++ [")"])%list /\ env_type (Some env) pat t0 = D :: fill pat t.
Proof.
  intros E. unfold env_value, env_type. rewrite E. cbn [rev]. rewrite !fold_left_app. cbn [fold_left].
  eexists. eexists. split; [|split; reflexivity]. apply nest_type. constructor.
Qed.
Lemma L_C62_unset_is_default pat e0 t0 : env_value None e0 = e0 /\ env_type None pat t0 = t0.
Proof. split; reflexivity. Qed.
(** The names are the runs of characters other than the six white space characters, in the
    order of the variable. *)
Definition white (c : ascii) : Prop := In (nat_of_ascii c) [9; 10; 11; 12; 13; 32]%nat.
Inductive all_chars (P : ascii -> Prop) : string -> Prop :=
  | AC_nil : all_chars P ""
  | AC_cons c s : P c -> all_chars P s -> all_chars P (String c s).
Inductive listed : string -> list string -> Prop :=
  | LS_end w : all_chars white w -> listed w []
  | LS_last w n : all_chars white w -> n <> "" -> all_chars (fun c => ~ white c) n -> listed (w ++ n) [n]
  | LS_more w n c s l : all_chars white w -> n <> "" -> all_chars (fun c => ~ white c) n -> white c ->
      listed s l -> listed (w ++ n ++ String c s) (n :: l).
Lemma space_white c : is_space c = true <-> white c.
Proof.
  unfold is_space, white. cbn [In]. rewrite orb_true_iff, andb_true_iff, !Nat.leb_le, Nat.eqb_eq. lia.
Qed.
Lemma words_white w s : all_chars white w -> words (w ++ s) "" = words s "".
Proof.
  induction 1 as [|c w H _ IH]; [reflexivity|]. cbn [append words].
  apply space_white in H. rewrite H. exact IH.
Qed.
Lemma app_nil_str s : (s ++ "")%string = s.
Proof. induction s as [|c s IH]; [reflexivity|]. cbn [append]. f_equal. exact IH. Qed.
Lemma app_str_cons s c t : (s ++ String c t)%string = ((s ++ String c "") ++ t)%string.
Proof. induction s as [|d s IH]; [reflexivity|]. cbn [append]. f_equal. exact IH. Qed.
Lemma words_name n : forall w s, all_chars (fun c => ~ white c) n -> words (n ++ s) w = words s (w ++ n).
Proof.
  induction n as [|c n IH]; intros w s H.
  - cbn [append]. f_equal. induction w as [|d w IHw]; [reflexivity|]. cbn [append]. f_equal. exact IHw.
  - inversion H; subst. cbn [append words]. destruct (is_space c) eqn:E; [apply space_white in E; contradiction|].
    rewrite IH by assumption. f_equal. symmetry. apply app_str_cons.
Qed.
Lemma L_C62_names_are_words s l : listed s l -> split_whitespace s = l.
Proof.
  unfold split_whitespace. induction 1 as [w H|w n H N A|w n c s l H N A C _ IH].
  - induction H as [|c w H _ IH]; [reflexivity|]. cbn [words]. apply space_white in H. rewrite H. exact IH.
  - rewrite words_white by exact H. rewrite <- (app_nil_str n) at 1. rewrite words_name by exact A.
    cbn [append words]. destruct n; [congruence|reflexivity].
  - rewrite words_white by exact H. rewrite words_name by exact A. cbn [append words].
    apply space_white in C. rewrite C, IH. destruct n; [congruence|reflexivity].
Qed.
Lemma L_C62_every_variable s : exists l, listed s l.
Proof.
  assert (G : forall s, (exists l, listed s l) /\
    (forall n, n <> "" -> all_chars (fun c => ~ white c) n -> exists l, listed (n ++ s) l)).
  { clear s. induction s as [|c s [IH1 IH2]]; split.
    - exists []. apply LS_end. constructor.
    - intros n N A. exists [n]. rewrite app_nil_str. change n with ("" ++ n) at 1. apply LS_last; [constructor|assumption..].
    - destruct (is_space c) eqn:E.
      + apply space_white in E. destruct IH1 as [l H]. exists l.
        inversion H; subst; [apply LS_end; constructor; assumption|..].
        * change (String c (w ++ n)) with (String c w ++ n). apply LS_last; [constructor|..]; assumption.
        * change (String c (w ++ n ++ String c0 s0)) with (String c w ++ n ++ String c0 s0). apply LS_more; [constructor|..]; assumption.
      + apply (IH2 (String c "")); [discriminate|]. constructor; [|constructor]. intros W. apply space_white in W. congruence.
    - intros n N A. destruct (is_space c) eqn:E.
      + apply space_white in E. destruct IH1 as [l H]. exists (n :: l). change (n ++ String c s) with ("" ++ n ++ String c s).
        apply LS_more; auto. constructor.
      + rewrite app_str_cons. apply IH2.
        * destruct n; discriminate.
        * clear N. induction A as [|d n D _ IHn]; cbn [append]; constructor; auto.
          -- intros W. apply space_white in W. congruence.
          -- constructor. }
  destruct (G s) as [H _]. exact H.
Qed.
Lemma L_C62_nonvacuous : env_value (Some " A  B ") ["s"] = ["A"; "::"; "new"; "("; "B"; "::"; "new"; "("; "s"; ")"; ")"] /\
  env_type (Some " A  B ") ["<"; "T"; ","; "*"; ">"] ["S"] = ["A"; "<"; "T"; ","; "B"; "<"; "T"; ","; "S"; ">"; ">"] /\
  split_whitespace " A  B " = ["A"; "B"] /\ listed " A  B " ["A"; "B"] /\
  split_whitespace ("A" ++ String "009" ("B" ++ String "010" "")) = ["A"; "B"].
Proof.
  split; [reflexivity|]. split; [reflexivity|]. split; [reflexivity|]. split; [|reflexivity].
  apply (LS_more " " "A" " " " B " ["B"]); [constructor; [cbv; tauto|constructor]|discriminate| |cbv; tauto|].
  - constructor; [|constructor]. cbv. lia.
  - apply (LS_more " " "B" " " "" []); [|discriminate| |cbv; tauto|apply LS_end; constructor].
    + constructor; [cbv; tauto|constructor].
    + constructor; [|constructor]. cbv. lia.
Qed.
