(** Handlers watch: what a handler answers changes neither the store nor the calls it gets. *)
From Coq Require Import NArith List Bool Lia.
From Verif Require Import Base Trees Lists TreeImpl Spec Iface Doublets Decorators UnitModel UnitLinks UnitHist SplitModel SplitLinks
  Obs Hist UnitClaims SplitHist SplitClaims Ffi DecoratorClaims.
Import ListNotations.
Open Scope N_scope.

(** ** Statements *)
(** What a handler remembers after the calls [cs], each a link before and a link after. *)
Definition tell {H} (h : whandler H) (cs : list (link * link)) (x : H) : H :=
  fold_left (fun x c => fst (h x (fst c) (snd c))) cs x.
Definition utell {H B} (h : uwrite H B) (cs : list (link * link)) (x : H) : H :=
  fold_left (fun x c => fst (h x (fst c) (snd c))) cs x.

(** What a call does, whatever the handler: a new store, calls, and success or an error;
    or a panic, undefined behaviour, divergence. *)
Definition script (S : Type) := out (S * list (link * link) * result unit).
Definition plays {S H A} (sc : script S) (told : list (link * link) -> H) (m : out (S * H * result A)) : Prop :=
  match sc with
  | Val (st', cs, Ok _) => exists a, m = Val (st', told cs, Ok a)
  | Val (st', cs, Err e) => m = Val (st', told cs, Err e)
  | Panic => m = Panic
  | UB => m = UB
  | Diverge => m = Diverge
  end.
(** One script for all handlers. *)
Definition watched {S A} (f : forall H, whandler H -> H -> out (S * H * result A)) : Prop :=
  exists sc, forall H (h : whandler H) x, plays sc (fun cs => tell h cs x) (f H h x).
Definition uwatched {S} {A : Type -> Type} (f : forall H B, uwrite H B -> H -> out (S * H * result (A B))) : Prop :=
  exists sc, forall H B (h : uwrite H B) x, plays sc (fun cs => utell h cs x) (f H B h x).

(** All modifying methods of a store, required and provided ones. *)
Record all_watched (cf : cfg) {S} (I : LinksI S) : Prop := {
  aw_create : forall q st, watched (fun H h x => li_create I H h q st x);
  aw_update : forall q ch st, watched (fun H h x => li_update I H h q ch st x);
  aw_delete : forall q st, watched (fun H h x => li_delete I H h q st x);
  aw_create_by_with : forall q st, uwatched (fun H B h x => d_create_by_with I (B := B) h q st x);
  aw_update_by_with : forall q ch st, uwatched (fun H B h x => d_update_by_with I (B := B) h q ch st x);
  aw_delete_by_with : forall q st, uwatched (fun H B h x => d_delete_by_with I (B := B) h q st x);
  aw_create_link_with : forall s t st, uwatched (A := fun _ => flow) (fun H B h x => d_create_link_with I (B := B) h s t st x);
  aw_delete_query_with : forall q st, uwatched (A := fun _ => unit) (fun H B h x => d_delete_query_with I (B := B) h q st x);
  aw_delete_usages_with : forall i st, uwatched (A := fun _ => unit) (fun H B h x => d_delete_usages_with cf I (B := B) h i st x);
  aw_rebase_with : forall old new st, uwatched (A := fun _ => unit) (fun H B h x => d_rebase_with cf I (B := B) h old new st x)
}.

(** The decorators of the library, and a store wrapped in some of them. *)
Inductive decorator := DUniqueValidator | DUniqueResolver | DUsagesValidator
| DNonNullDeletion | DCascadeUsages | DCascadeUnique.
Definition decorate {S} (cf : cfg) (d : decorator) (I : LinksI S) : LinksI S :=
  match d with
  | DUniqueValidator => unique_validator cf I
  | DUniqueResolver => unique_resolver cf I
  | DUsagesValidator => usages_validator cf I
  | DNonNullDeletion => non_null_deletion_resolver cf I
  | DCascadeUsages => cascade_usages_resolver cf I
  | DCascadeUnique => cascade_unique_resolver cf I
  end.
Definition wrapped {S} (cf : cfg) (ds : list decorator) (I : LinksI S) : LinksI S := fold_right (decorate cf) I ds.

(** Two calls leave the same store, and fail with the same error or not at all. *)
Definition same_effect {S H1 A1 H2 A2} (m1 : out (S * H1 * result A1)) (m2 : out (S * H2 * result A2)) : Prop :=
  match m1, m2 with
  | Val (s1, _, r1), Val (s2, _, r2) =>
      s1 = s2 /\ match r1, r2 with Ok _, Ok _ => True | Err e1, Err e2 => e1 = e2 | _, _ => False end
  | Panic, Panic | UB, UB | Diverge, Diverge => True
  | _, _ => False
  end.

(** ** Proofs *)
Lemma plays_same {S H1 A1 H2 A2} sc t1 t2 (m1 : out (S * H1 * result A1)) (m2 : out (S * H2 * result A2)) :
  plays sc t1 m1 -> plays sc t2 m2 -> same_effect m1 m2.
Proof.
  destruct sc as [[[st' cs] [u|e]]| | |]; cbn.
  - intros (a & ->) (b & ->). cbn. auto.
  - intros -> ->. cbn. auto.
  - intros -> ->. exact I.
  - intros -> ->. exact I.
  - intros -> ->. exact I.
Qed.

Lemma tell_app {H} (h : whandler H) c1 c2 x : tell h (c1 ++ c2) x = tell h c2 (tell h c1 x).
Proof. apply fold_left_app. Qed.
Lemma utell_app {H B} (h : uwrite H B) c1 c2 x : utell h (c1 ++ c2) x = utell h c2 (utell h c1 x).
Proof. apply fold_left_app. Qed.
Lemma tell_wadapt {H B} (h : uwrite H B) cs : forall x o, fst (tell (wadapt h) cs (x, o)) = utell h cs x.
Proof.
  induction cs as [|[b a] cs IH]; intros x o; [reflexivity|].
  change (fst (tell (wadapt h) cs (fst (wadapt h (x, o) b a))) = utell h cs (fst (h x b a))). unfold wadapt at 2.
  destruct (h x b a) as [x' [r|]]; cbn [fst]; apply IH.
Qed.
Lemma utell_uw {H} (h : whandler H) cs : forall x, utell (uw_of h) cs x = tell h cs x.
Proof.
  induction cs as [|[b a] cs IH]; intros x; [reflexivity|].
  change (utell (uw_of h) cs (fst (uw_of h x b a)) = tell h cs (fst (h x b a))). rewrite IH.
  unfold uw_of. destruct (h x b a) as [x' []]; reflexivity.
Qed.
Lemma utell_fuse {H B} (h : uwrite H B) cs : forall x, utell (fuse_call h) cs (x, false) = (utell h cs x, false).
Proof.
  induction cs as [|[b a] cs IH]; intros x; [reflexivity|].
  change (utell (fuse_call h) cs (fst (fuse_call h (x, false) b a)) = (utell h cs (fst (h x b a)), false)). unfold fuse_call at 2.
  destruct (h x b a) as [x' [r|]]; cbn [fst]; apply IH.
Qed.

Section Watched.
  Context {S : Type}.
  (** handler-free steps *)
  Lemma w_let {A C} (m : out C) (f : C -> forall H, whandler H -> H -> out (S * H * result A)) :
    (forall c, watched (f c)) -> watched (fun H h x => let* c := m in f c H h x).
  Proof.
    intros W. destruct m as [c| | |]; cbn [obind]; [apply W|exists Panic|exists UB|exists Diverge]; intros; reflexivity.
  Qed.
  Lemma w_err {A} (st : S) e : watched (A := A) (fun H h x => Val (st, x, Err e)).
  Proof. exists (Val (st, [], Err e)). intros. reflexivity. Qed.
  Lemma w_ok {A} (st : S) (a : A) : watched (fun H h x => Val (st, x, Ok a)).
  Proof. exists (Val (st, [], Ok tt)). intros. exists a. reflexivity. Qed.
  Lemma w_call (st : S) b a : watched (fun H h x => let (x', f) := h x b a in Val (st, x', Ok f)).
  Proof.
    exists (Val (st, [(b, a)], Ok tt)). intros H h x. cbn. destruct (h x b a) as [x' f]. eexists. reflexivity.
  Qed.
  Lemma w_panic {A} : watched (A := A) (fun H h x => @Panic (S * H * result A)).
  Proof. exists Panic. intros. reflexivity. Qed.

  Lemma uw_let {A : Type -> Type} {C} (m : out C) (f : C -> forall H B, uwrite H B -> H -> out (S * H * result (A B))) :
    (forall c, uwatched (f c)) -> uwatched (fun H B h x => let* c := m in f c H B h x).
  Proof.
    intros W. destruct m as [c| | |]; cbn [obind]; [apply W|exists Panic|exists UB|exists Diverge]; intros; reflexivity.
  Qed.
  Lemma uw_err {A : Type -> Type} (st : S) e : uwatched (A := A) (fun H B h x => Val (st, x, Err e)).
  Proof. exists (Val (st, [], Err e)). intros. reflexivity. Qed.
  Lemma uw_ok {A : Type} (st : S) (a : A) : uwatched (A := fun _ => A) (fun H B h x => Val (st, x, Ok a)).
  Proof. exists (Val (st, [], Ok tt)). intros. exists a. reflexivity. Qed.
  Lemma uw_none (st : S) : uwatched (A := option) (fun H B h x => Val (st, x, Ok None)).
  Proof. exists (Val (st, [], Ok tt)). intros. exists None. reflexivity. Qed.

  (** one call after another, unless it fails *)
  Lemma uw_then {A1 A2 : Type -> Type} (f : forall H B, uwrite H B -> H -> out (S * H * result (A1 B)))
    (g : S -> forall H B, uwrite H B -> H -> out (S * H * result (A2 B))) :
    uwatched f -> (forall st, uwatched (g st)) ->
    uwatched (fun H B h x => then_ok (f H B h x) (fun st x => g st H B h x)).
  Proof.
    intros (sc & F) G. destruct sc as [[[st1 c1] [u|e]]| | |].
    - destruct (G st1) as (sc2 & G2).
      exists (match sc2 with Val (st2, c2, r) => Val (st2, c1 ++ c2, r) | Panic => Panic | UB => UB | Diverge => Diverge end).
      intros H B h x. destruct (F H B h x) as (a & ->). cbn [then_ok obind].
      specialize (G2 H B h (utell h c1 x)). destruct sc2 as [[[st2 c2] [u2|e2]]| | |]; cbn in *; rewrite ?utell_app; exact G2.
    - exists (Val (st1, c1, Err e)). intros H B h x. rewrite (F H B h x). reflexivity.
    - exists Panic. intros H B h x. rewrite (F H B h x). reflexivity.
    - exists UB. intros H B h x. rewrite (F H B h x). reflexivity.
    - exists Diverge. intros H B h x. rewrite (F H B h x). reflexivity.
  Qed.
  Lemma w_then {A1 A2 : Type} (f : forall H, whandler H -> H -> out (S * H * result A1))
    (g : S -> forall H, whandler H -> H -> out (S * H * result A2)) :
    watched f -> (forall st, watched (g st)) ->
    watched (fun H h x => then_ok (f H h x) (fun st x => g st H h x)).
  Proof.
    intros (sc & F) G. destruct sc as [[[st1 c1] [u|e]]| | |].
    - destruct (G st1) as (sc2 & G2).
      exists (match sc2 with Val (st2, c2, r) => Val (st2, c1 ++ c2, r) | Panic => Panic | UB => UB | Diverge => Diverge end).
      intros H h x. destruct (F H h x) as (a & ->). cbn [then_ok obind].
      specialize (G2 H h (tell h c1 x)). destruct sc2 as [[[st2 c2] [u2|e2]]| | |]; cbn in *; rewrite ?tell_app; exact G2.
    - exists (Val (st1, c1, Err e)). intros H h x. rewrite (F H h x). reflexivity.
    - exists Panic. intros H h x. rewrite (F H h x). reflexivity.
    - exists UB. intros H h x. rewrite (F H h x). reflexivity.
    - exists Diverge. intros H h x. rewrite (F H h x). reflexivity.
  Qed.

  Lemma w_uw {A : Type -> Type} (f : forall H B, uwrite H B -> H -> out (S * H * result (A B))) :
    uwatched f -> watched (fun H h x => f H unit (uw_of h) x).
  Proof.
    intros (sc & F). exists sc. intros H h x. specialize (F H unit (uw_of h) x).
    destruct sc as [[[st1 c1] [u|e]]| | |]; cbn in *; rewrite ?utell_uw in F; exact F.
  Qed.
  Lemma w_to_flow (f : forall H, whandler H -> H -> out (S * H * result (option unit))) :
    watched f -> watched (fun H h x => to_flow (f H h x)).
  Proof.
    intros (sc & F). exists sc. intros H h x. specialize (F H h x).
    destruct sc as [[[st1 c1] [u|e]]| | |]; cbn in *; [destruct F as (a & ->); eexists; reflexivity|rewrite F; reflexivity..].
  Qed.
  (** the adapted closure, and the fuse *)
  Lemma uw_adapt (f : forall H, whandler H -> H -> out (S * H * result flow)) : watched f ->
    uwatched (A := option) (fun H B h x =>
      let* (st', (x', o), r) := f _ (wadapt h) (x, None) in Val (st', x', rmap (fun _ => o) r)).
  Proof.
    intros (sc & F). exists sc. intros H B h x. specialize (F _ (wadapt h) (x, None)).
    destruct sc as [[[st1 c1] [u|e]]| | |]; cbn in *.
    - destruct F as (a & ->). rewrite <- (tell_wadapt h c1 x None). cbn [obind].
      destruct (tell (wadapt h) c1 (x, None)). cbn. eexists. reflexivity.
    - rewrite F. rewrite <- (tell_wadapt h c1 x None). cbn [obind].
      destruct (tell (wadapt h) c1 (x, None)). reflexivity.
    - now rewrite F.
    - now rewrite F.
    - now rewrite F.
  Qed.
  Lemma uw_fuse {A : Type -> Type} {A2 : Type} (f : forall H B, uwrite H B -> H -> out (S * H * result (A B))) (k : A unit -> A2) :
    uwatched f ->
    uwatched (A := fun _ => A2) (fun H B h x =>
      let* (st', (x', _), r) := f _ _ (fuse_call (B := B) h) (x, false) in Val (st', x', rmap k r)).
  Proof.
    intros (sc & F). exists sc. intros H B h x. specialize (F _ _ (fuse_call h) (x, false)).
    destruct sc as [[[st1 c1] [u|e]]| | |]; cbn in *; rewrite ?utell_fuse in F.
    - destruct F as (a & ->). eexists. reflexivity.
    - now rewrite F.
    - now rewrite F.
    - now rewrite F.
    - now rewrite F.
  Qed.
End Watched.

(** From the three required methods to the provided ones. *)
Section Provided.
  Context {S : Type}.
  Variable cf : cfg.
  Variable I : LinksI S.
  Hypothesis WC : forall q st, watched (fun H h x => li_create I H h q st x).
  Hypothesis WU : forall q ch st, watched (fun H h x => li_update I H h q ch st x).
  Hypothesis WD : forall q st, watched (fun H h x => li_delete I H h q st x).

  Lemma wp_create_by_with q st : uwatched (fun H B h x => d_create_by_with I (B := B) h q st x).
  Proof. exact (uw_adapt _ (WC q st)). Qed.
  Lemma wp_update_by_with q ch st : uwatched (fun H B h x => d_update_by_with I (B := B) h q ch st x).
  Proof. exact (uw_adapt _ (WU q ch st)). Qed.
  Lemma wp_delete_by_with q st : uwatched (fun H B h x => d_delete_by_with I (B := B) h q st x).
  Proof. exact (uw_adapt _ (WD q st)). Qed.

  Lemma wp_delete_list l : forall st, uwatched (A := fun _ => unit) (fun H B h x => d_delete_list I (B := B) h l st x).
  Proof.
    induction l as [|i l IH]; intros st; [apply uw_ok|].
    exact (uw_then (A2 := fun _ => unit) _ (fun st H B h x => d_delete_list I h l st x) (wp_delete_by_with [i] st) IH).
  Qed.
  Lemma wp_fused_deletes l st : uwatched (A := fun _ => unit) (fun H B h x =>
    let* (st', (x', _), r) := d_delete_list I (fuse_call (B := B) h) l st (x, false) in Val (st', x', r)).
  Proof.
    destruct (uw_fuse (A := fun _ => unit) _ (fun u => u) (wp_delete_list l st)) as (sc & F). exists sc.
    intros H B h x. specialize (F H B h x). cbn beta in F.
    replace (let* (st', (x', _), r) := d_delete_list I (fuse_call h) l st (x, false) in Val (st', x', r))
      with (let* (st', (x', _), r) := d_delete_list I (fuse_call h) l st (x, false) in Val (st', x', rmap (fun u : unit => u) r)); [exact F|].
    destruct (d_delete_list I (fuse_call h) l st (x, false)) as [[[st' [x' b]] [u|e]]| | |]; reflexivity.
  Qed.
  Lemma wp_delete_query_with q st : uwatched (A := fun _ => unit) (fun H B h x => d_delete_query_with I (B := B) h q st x).
  Proof.
    unfold d_delete_query_with. apply (uw_let (A := fun _ => unit)). intros n. apply (uw_let (A := fun _ => unit)).
    intros [v o]. apply wp_fused_deletes.
  Qed.
  Lemma wp_delete_usages_with i st : uwatched (A := fun _ => unit) (fun H B h x => d_delete_usages_with cf I (B := B) h i st x).
  Proof.
    unfold d_delete_usages_with. apply (uw_let (A := fun _ => unit)). intros _. apply (uw_let (A := fun _ => unit)). intros _.
    apply (uw_let (A := fun _ => unit)). intros [v1 o1]. apply (uw_let (A := fun _ => unit)). intros [v2 o2]. apply wp_fused_deletes.
  Qed.

  (** create_link_with remembers the index it was told *)
  Lemma wp_create_link_with s t st : uwatched (A := fun _ => flow) (fun H B h x => d_create_link_with I (B := B) h s t st x).
  Proof.
    destruct (wp_create_by_with [] st) as (sc & F).
    assert (TL : forall H B (h : uwrite H B) cs n x,
      utell (B := unit) (fun '(_, hs) b a => ((l_index a, fst (fuse_call h hs b a)), None)) cs (n, (x, false)) =
      (fold_left (fun _ c => l_index (snd c)) cs n, (utell h cs x, false))).
    { intros H B h. induction cs as [|[b a] cs IH]; intros n x; [reflexivity|].
      cbn [utell fold_left fst snd]. unfold fuse_call at 2. destruct (h x b a) as [x' [r|]] eqn:E; cbn [fst]; apply IH. }
    destruct sc as [[[st1 c1] [u|e]]| | |].
    - set (new := fold_left (fun _ c => l_index (snd c)) c1 0).
      destruct (wp_update_by_with [new] [new; s; t] st1) as (sc2 & F2).
      exists (match sc2 with Val (st2, c2, r) => Val (st2, c1 ++ c2, r) | Panic => Panic | UB => UB | Diverge => Diverge end).
      intros H B h x. unfold d_create_link_with, d_create_with.
      destruct (F _ unit (fun '(_, hs) b a => ((l_index a, fst (fuse_call h hs b a)), None)) (0, (x, false))) as (a & E).
      rewrite TL in E. rewrite E. cbn [obind]. fold new. unfold d_update_with.
      specialize (F2 _ unit (fuse_call h) (utell h c1 x, false)).
      destruct sc2 as [[[st2 c2] [u2|e2]]| | |]; cbn in *; rewrite ?utell_fuse in F2.
      + destruct F2 as (o & ->). cbn. rewrite utell_app. eexists. reflexivity.
      + rewrite F2. cbn. now rewrite utell_app.
      + now rewrite F2.
      + now rewrite F2.
      + now rewrite F2.
    - exists (Val (st1, c1, Err e)). intros H B h x. unfold d_create_link_with, d_create_with.
      rewrite (F _ unit (fun '(_, hs) b a => ((l_index a, fst (fuse_call h hs b a)), None)) (0, (x, false))), TL. reflexivity.
    - exists Panic. intros H B h x. unfold d_create_link_with, d_create_with. rewrite (F _ unit _ _). reflexivity.
    - exists UB. intros H B h x. unfold d_create_link_with, d_create_with. rewrite (F _ unit _ _). reflexivity.
    - exists Diverge. intros H B h x. unfold d_create_link_with, d_create_with. rewrite (F _ unit _ _). reflexivity.
  Qed.

  Lemma wp_rebase_list old new l : forall st, uwatched (A := fun _ => unit) (fun H B h x => d_rebase_list I (B := B) h old new l st x).
  Proof.
    induction l as [|u l IH]; intros st; [apply uw_ok|].
    refine (uw_then (A1 := option) (A2 := fun _ => unit)
      (fun H B h x => if l_source u =? old then d_update_with I h (l_index u) new (l_target u) st x else Val (st, x, Ok None))
      (fun st1 H B h x => then_ok
         (if l_target u =? old then d_update_with I h (l_index u) (l_source u) new st1 x else Val (st1, x, Ok None))
         (fun st2 x2 => d_rebase_list I h old new l st2 x2)) _ _).
    - destruct (l_source u =? old); [apply wp_update_by_with|apply uw_none].
    - intros st1. refine (uw_then (A1 := option) (A2 := fun _ => unit)
        (fun H B h x => if l_target u =? old then d_update_with I h (l_index u) (l_source u) new st1 x else Val (st1, x, Ok None))
        (fun st2 H B h x => d_rebase_list I h old new l st2 x) _ IH).
      destruct (l_target u =? old); [apply wp_update_by_with|apply uw_none].
  Qed.
  Lemma wp_rebase_with old new st : uwatched (A := fun _ => unit) (fun H B h x => d_rebase_with cf I (B := B) h old new st x).
  Proof.
    unfold d_rebase_with. apply (uw_let (A := fun _ => unit)). intros [g|e]; [|apply (uw_err (A := fun _ => unit))].
    destruct (old =? new); [apply uw_ok|]. apply (uw_let (A := fun _ => unit)). intros l1. apply (uw_let (A := fun _ => unit)). intros l2.
    destruct (uw_fuse (A := fun _ => unit) _ (fun u => u) (wp_rebase_list old new (filter (fun u => negb (l_index u =? old)) (l1 ++ l2)) st)) as (sc & F).
    exists sc. intros H B h x. specialize (F H B h x). cbn beta zeta in F |- *.
    destruct (d_rebase_list I (fuse_call h) old new (filter (fun u => negb (l_index u =? old)) (l1 ++ l2)) st (x, false)) as [[[st' [x' b]] [u|e]]| | |]; exact F.
  Qed.

  Lemma provided_watched : all_watched cf I.
  Proof.
    constructor; auto using wp_create_by_with, wp_update_by_with, wp_delete_by_with, wp_create_link_with,
      wp_delete_query_with, wp_delete_usages_with, wp_rebase_with.
  Qed.
End Provided.

Lemma decorate_watched {S} cf d (I : LinksI S) : all_watched cf I -> all_watched cf (decorate cf d I).
Proof.
  intros [WC WU WD XC XU XD _ _ XX XR].
  assert (XU' : forall i s t st, watched (fun H h x => to_flow (d_update_with I (uw_of h) i s t st x))).
  { intros i s t st. apply w_to_flow. exact (w_uw _ (XU [i] [i; s; t] st)). }
  destruct d; apply provided_watched; cbn [decorate unique_validator unique_resolver usages_validator
    non_null_deletion_resolver cascade_usages_resolver cascade_unique_resolver li_create li_update li_delete]; auto.
  - intros q ch st. apply w_let. intros s. apply w_let. intros t. apply w_let. intros [|]; [apply w_err|apply WU].
  - intros q ch st. apply w_let. intros new. apply w_let. intros s. apply w_let. intros t. apply w_let. intros [old|]; [|apply XU'].
    refine (w_then _ (fun st H h x => to_flow (d_update_with I (uw_of h) old s t st x)) (w_uw _ (XD [new] st)) _). intros; apply XU'.
  - intros q ch st. unfold if_unused. apply w_let. intros i. apply w_let. intros [[|u us]|e]; [apply WU| |apply w_err].
    apply w_let. intros [ls|e]; apply w_err.
  - intros q st. unfold if_unused. apply w_let. intros i. apply w_let. intros [[|u us]|e]; [apply WD| |apply w_err].
    apply w_let. intros [ls|e]; apply w_err.
  - intros q st. apply w_let. intros i.
    refine (w_then _ (fun st H h x => li_delete I H h q st x) (w_uw _ (XU q [i; c_null cf; c_null cf] st)) _). intros; apply WD.
  - intros q st. apply w_let. intros i.
    refine (w_then _ (fun st H h x => li_delete I H h q st x) (w_uw (A := fun _ => unit) _ (XX i st)) _). intros; apply WD.
  - intros q ch st. apply w_let. intros new. apply w_let. intros s. apply w_let. intros t. apply w_let. intros [old|]; [|apply XU'].
    refine (w_then _ (fun st H h x => then_ok (d_delete_with I (uw_of h) new st x)
      (fun st x => to_flow (d_update_with I (uw_of h) old s t st x))) (w_uw (A := fun _ => unit) _ (XR new old st)) _).
    intros st1. refine (w_then _ (fun st H h x => to_flow (d_update_with I (uw_of h) old s t st x)) (w_uw _ (XD [new] st1)) _).
    intros; apply XU'.
Qed.

Lemma unit_watched cf tops lops : all_watched cf (unit_links cf tops lops).
Proof.
  apply provided_watched; cbn [unit_links li_create li_update li_delete]; intros.
  - unfold u_create. apply w_let. intros _. destruct (h_first st =? c_null cf).
    + cbv zeta. destruct (c_iend cf <=? h_alloc st); [apply w_err|]. apply w_let. intros [st1 [u|e]]; [|apply w_err].
      apply w_let. intros a. apply w_call.
    + apply w_let. intros st1. apply w_call.
  - unfold u_update. apply w_let. intros i. apply w_let. intros s. apply w_let. intros t. apply w_let.
    intros [lk|]; [|apply w_err]. apply w_let. intros st1. apply w_call.
  - unfold u_delete. apply w_let. intros i. apply w_let. intros [lk|]; [|apply w_err]. apply w_let.
    intros [[st1 u] [f|e]]; [|apply w_err]. apply w_let. intros _. apply w_let. intros st3. apply w_call.
Qed.
Lemma split_watched cf tops lops : all_watched cf (split_links cf tops lops).
Proof.
  apply provided_watched; cbn [split_links li_create li_update li_delete]; intros.
  - unfold s_create. apply w_let. intros _. destruct (sh_first st =? c_null cf).
    + cbv zeta. destruct (c_iend cf <=? sh_alloc st); [apply w_err|]. apply w_let. intros [st1 [u|e]]; [|apply w_err].
      apply w_let. intros a. apply w_let. intros st2. apply w_call.
    + apply w_let. intros st1. apply w_let. intros st2. apply w_call.
  - unfold s_update. apply w_let. intros i. apply w_let. intros s. apply w_let. intros t. apply w_let.
    intros [lk|]; [|apply w_err]. apply w_let. intros st1. apply w_call.
  - unfold s_delete. apply w_let. intros i. apply w_let. intros [lk|]; [|apply w_err]. apply w_let. intros st0. apply w_let.
    intros [[st1 u] [f|e]]; [|apply w_err]. apply w_let. intros _. apply w_let. intros st3. apply w_call.
Qed.
Lemma wrapped_watched {S} cf ds (I : LinksI S) : all_watched cf I -> all_watched cf (wrapped cf ds I).
Proof. intros W. induction ds as [|d ds IH]; [exact W|]. now apply decorate_watched. Qed.

(** * C66 *)
(** Any decorators around either store, in any state, for every modifying method: there is one
    script of calls, final store and success or error, the same for all handlers. *)
Lemma L_C66_unit cf tops lops ds : all_watched cf (wrapped cf ds (unit_links cf tops lops)).
Proof. apply wrapped_watched, unit_watched. Qed.
Lemma L_C66_split cf tops lops ds : all_watched cf (wrapped cf ds (split_links cf tops lops)).
Proof. apply wrapped_watched, split_watched. Qed.

(** So two handlers cannot lead to different stores or errors. *)
Lemma L_C66_same_effect cf S (I : LinksI S) H1 (h1 : whandler H1) x1 H2 (h2 : whandler H2) x2 st :
  all_watched cf I ->
  (forall q, same_effect (li_create I H1 h1 q st x1) (li_create I H2 h2 q st x2)) /\
  (forall q ch, same_effect (li_update I H1 h1 q ch st x1) (li_update I H2 h2 q ch st x2)) /\
  (forall q, same_effect (li_delete I H1 h1 q st x1) (li_delete I H2 h2 q st x2)).
Proof.
  intros [WC WU WD _ _ _ _ _ _ _]. split; [|split].
  - intros q. destruct (WC q st) as (sc & F). exact (plays_same sc _ _ _ _ (F H1 h1 x1) (F H2 h2 x2)).
  - intros q ch. destruct (WU q ch st) as (sc & F). exact (plays_same sc _ _ _ _ (F H1 h1 x1) (F H2 h2 x2)).
  - intros q. destruct (WD q st) as (sc & F). exact (plays_same sc _ _ _ _ (F H1 h1 x1) (F H2 h2 x2)).
Qed.
Lemma L_C66_same_effect_provided cf S (I : LinksI S) H1 B1 (h1 : uwrite H1 B1) x1 H2 B2 (h2 : uwrite H2 B2) x2 st :
  all_watched cf I ->
  (forall s t, same_effect (d_create_link_with I h1 s t st x1) (d_create_link_with I h2 s t st x2)) /\
  (forall q, same_effect (d_delete_query_with I h1 q st x1) (d_delete_query_with I h2 q st x2)) /\
  (forall i, same_effect (d_delete_usages_with cf I h1 i st x1) (d_delete_usages_with cf I h2 i st x2)) /\
  (forall old new, same_effect (d_rebase_with cf I h1 old new st x1) (d_rebase_with cf I h2 old new st x2)).
Proof.
  intros [_ _ _ _ _ _ W1 W2 W3 W4]. split; [|split; [|split]].
  - intros s t. destruct (W1 s t st) as (sc & F). exact (plays_same sc _ _ _ _ (F H1 B1 h1 x1) (F H2 B2 h2 x2)).
  - intros q. destruct (W2 q st) as (sc & F). exact (plays_same sc _ _ _ _ (F H1 B1 h1 x1) (F H2 B2 h2 x2)).
  - intros i. destruct (W3 i st) as (sc & F). exact (plays_same sc _ _ _ _ (F H1 B1 h1 x1) (F H2 B2 h2 x2)).
  - intros old new. destruct (W4 old new st) as (sc & F). exact (plays_same sc _ _ _ _ (F H1 B1 h1 x1) (F H2 B2 h2 x2)).
Qed.

(** The same for foreign callbacks: whatever constant they return. *)
Definition same_store {S H1 H2} (m1 : out (S * H1 * N)) (m2 : out (S * H2 * N)) : Prop :=
  match m1, m2 with
  | Val (s1, _, _), Val (s2, _, _) => s1 = s2
  | Panic, Panic | UB, UB | Diverge, Diverge => True
  | _, _ => False
  end.
Lemma same_store_of {S H1 A1 H2 A2} (m1 : out (S * H1 * result A1)) (m2 : out (S * H2 * result A2)) (f1 : result A1 -> N) (f2 : result A2 -> N) :
  same_effect m1 m2 -> same_store (let* (st, x, r) := m1 in Val (st, x, f1 r)) (let* (st, x, r) := m2 in Val (st, x, f2 r)).
Proof. destruct m1 as [[[s1 y1] r1]| | |], m2 as [[[s2 y2] r2]| | |]; cbn; tauto. Qed.
Lemma L_C66_callbacks cf S (I : LinksI S) fc H1 (cb1 : ccallback H1) x1 H2 (cb2 : ccallback H2) x2 st :
  all_watched cf I ->
  (forall p n, same_store (f_create fc I cb1 p n st x1) (f_create fc I cb2 p n st x2)) /\
  (forall p n p' n', same_store (f_update fc I cb1 p n p' n' st x1) (f_update fc I cb2 p n p' n' st x2)) /\
  (forall p n, same_store (f_delete fc I cb1 p n st x1) (f_delete fc I cb2 p n st x2)).
Proof.
  intros [_ _ _ W1 W2 W3 _ _ _ _]. split; [|split].
  - intros p n. unfold f_create. destruct (query_from_raw p n) as [q| | |]; cbn [obind]; try exact Logic.I.
    apply same_store_of. destruct (W1 q st) as (sc & F). exact (plays_same sc _ _ _ _ (F _ _ _ _) (F _ _ _ _)).
  - intros p n p' n'. unfold f_update. destruct (query_from_raw p n) as [q| | |]; cbn [obind]; try exact Logic.I.
    destruct (query_from_raw p' n') as [ch| | |]; cbn [obind]; try exact Logic.I.
    apply same_store_of. destruct (W2 q ch st) as (sc & F). exact (plays_same sc _ _ _ _ (F _ _ _ _) (F _ _ _ _)).
  - intros p n. unfold f_delete. destruct (query_from_raw p n) as [q| | |]; cbn [obind]; try exact Logic.I.
    apply same_store_of. destruct (W3 q st) as (sc & F). exact (plays_same sc _ _ _ _ (F _ _ _ _) (F _ _ _ _)).
Qed.

(** A handler that breaks at every call and notes the links: both deletions happen. *)
Lemma L_C66_nonvacuous :
  let I := wrapped ex_cf [DNonNullDeletion; DCascadeUsages] ex_U in
  is_link ex_U (ex_st ex3) 2 1 2 /\ is_link ex_U (ex_st ex3) 3 2 1 /\
  exists st', li_delete I _ (fun v b a => (v ++ [(l_index b, l_index a)], Break)) [2] (ex_st ex3) [] =
    Val (st', [(2, 2); (3, 0); (2, 0)], Ok Break) /\ no_link ex_U st' 2 /\ no_link ex_U st' 3 /\ is_link ex_U st' 1 1 1.
Proof.
  cbv zeta. destruct ex3_reach as (d & HH & DP & L1 & L2 & L3). split; [exact L2|]. split; [exact L3|].
  eexists. split; [vm_compute; reflexivity|]. split; [vm_compute; reflexivity|]. split; vm_compute; reflexivity.
Qed.
