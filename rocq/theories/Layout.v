(** The memory of the stores as a flat sequence of address-sized words, and the claims that
    the columns of the models are this memory seen through the struct definitions (C63). *)
From Coq Require Import NArith List Bool String Lia.
From Verif Require Import Base Trees Lists UnitModel SplitModel UnitHist SplitHist.
Import ListNotations.
Open Scope N_scope.

(** The fields in the order of their declaration.  The structs are [repr(C)] and all fields
    have type [T], so the k-th field is the k-th word of the struct. *)
(** mem/header.rs:5-15 *)
Definition header_fields : list string :=
  ["allocated"; "reserved"; "free"; "first_free"; "root_as_source"; "root_as_target"; "last_free"; "__reserved_8"]%string.
(** mem/unit/raw_link.rs:5-14 *)
Definition link_fields : list string :=
  ["source"; "target"; "left_as_source"; "right_as_source"; "size_as_source"; "left_as_target"; "right_as_target"; "size_as_target"]%string.
(** mem/split/data_part.rs:5-8 *)
Definition data_fields : list string := ["source"; "target"]%string.
(** mem/split/index_part.rs:5-15 *)
Definition index_fields : list string :=
  ["root_as_source"; "left_as_source"; "right_as_source"; "size_as_source"; "root_as_target"; "left_as_target"; "right_as_target"; "size_as_target"]%string.

Definition size_of (fs : list string) : N := N.of_nat (List.length fs).
Fixpoint position (fs : list string) (f : string) : N :=
  match fs with [] => 0 | g :: fs' => if String.eqb g f then 0 else position fs' f + 1 end.
(** The word of field [f] of the struct in slot [i] of a slice of structs [fs]. *)
Definition word_at (fs : list string) (i : N) (f : string) : N := i * size_of fs + position fs f.

(** The words of a slice whose slot [i] has the words [cell i]. *)
Definition flat (n : N) (cell : N -> N -> N) (w : N) : N := cell (w / n) (w mod n).

Fixpoint pick (l : list N) (k : N) : N := match l with [] => 0 | x :: l' => if k =? 0 then x else pick l' (k - 1) end.
(** The memory of the single-memory store: one slice of LinkPart. *)
Definition u_words (st : ust) : N -> N :=
  flat 8 (fun i => pick [fst (u_data st i); snd (u_data st i); nl (u_src st i); nr (u_src st i); nz (u_src st i);
                         nl (u_tgt st i); nr (u_tgt st i); nz (u_tgt st i)]).
(** The memories of the two-memory store: a slice of DataPart and a slice of IndexPart. *)
Definition s_dwords (st : sst) : N -> N := flat 2 (fun i => pick [fst (s_data st i); snd (s_data st i)]).
Definition s_iwords (st : sst) : N -> N :=
  flat 8 (fun i => pick [s_rs st i; nl (s_is st i); nr (s_is st i); nz (s_is st i); s_rt st i; nl (s_it st i); nr (s_it st i); nz (s_it st i)]).

Lemma flat_at n cell i k : k < n -> flat n cell (i * n + k) = cell i k.
Proof.
  intros L. unfold flat. rewrite N.add_comm. rewrite N.div_add by lia. rewrite N.mod_add by lia.
  rewrite N.div_small, N.mod_small by lia. now rewrite N.add_0_l.
Qed.
Lemma flat_word n w : n <> 0 -> exists i k, k < n /\ w = i * n + k.
Proof.
  intros N0. exists (w / n), (w mod n). split; [now apply N.mod_lt|].
  rewrite (N.div_mod w n N0) at 1. lia.
Qed.
Lemma word_inj n i k j l : k < n -> l < n -> i * n + k = j * n + l -> i = j /\ k = l.
Proof.
  intros K L E. assert (EI : (i * n + k) / n = (j * n + l) / n) by now rewrite E.
  rewrite !(N.add_comm (_ * n)), !N.div_add, !N.div_small in EI by lia. cbn in EI. split; [lia|].
  assert (i = j) by lia. subst. lia.
Qed.
(** Two slices with the same cells but for one word. *)
Lemma flat_upd n cell cell' i k v : n <> 0 -> k < n -> cell' i k = v ->
  (forall j l, l < n -> j <> i \/ l <> k -> cell' j l = cell j l) ->
  forall w, flat n cell' w = upd (flat n cell) (i * n + k) v w.
Proof.
  intros N0 K V O w. destruct (flat_word n w N0) as (j & l & L & ->). rewrite flat_at by auto. unfold upd.
  destruct (N.eqb_spec (j * n + l) (i * n + k)) as [E|E].
  - apply word_inj in E as [-> ->]; auto.
  - rewrite flat_at by auto. apply O; auto. destruct (N.eq_dec j i) as [->|]; [|auto]. right. intros ->. now apply E.
Qed.
Lemma lt8 (P : N -> Prop) : P 0 -> P 1 -> P 2 -> P 3 -> P 4 -> P 5 -> P 6 -> P 7 -> forall k, k < 8 -> P k.
Proof.
  intros. assert (C : k = 0 \/ k = 1 \/ k = 2 \/ k = 3 \/ k = 4 \/ k = 5 \/ k = 6 \/ k = 7) by lia.
  decompose [or] C; subst; auto.
Qed.
Lemma lt2 (P : N -> Prop) : P 0 -> P 1 -> forall k, k < 2 -> P k.
Proof. intros. assert (C : k = 0 \/ k = 1) by lia. decompose [or] C; subst; auto. Qed.

(** Several words written one after the other. *)
Definition writes (W W' : N -> N) (l : list (N * N)) : Prop :=
  forall w, W' w = fold_left (fun m p => upd m (fst p) (snd p)) l W w.
Lemma fold_upd_ext ps : forall (m m' : N -> N), (forall w, m w = m' w) ->
  forall w, fold_left (fun m p => upd m (fst p) (snd p)) ps m w = fold_left (fun m p => upd m (fst p) (snd p)) ps m' w.
Proof.
  induction ps as [|p ps IH]; intros m m' E w; cbn; auto. apply IH. intros w2. unfold upd. destruct (w2 =? fst p); auto.
Qed.
Lemma flat_writes n (l : list (N * N * N)) : n <> 0 -> forall cell cell',
  Forall (fun p => snd (fst p) < n) l ->
  (forall j k, k < n -> cell' j k = fold_left (fun (m : N -> N -> N) p => fun j k => if (j =? fst (fst p)) && (k =? snd (fst p)) then snd p else m j k) l cell j k) ->
  writes (flat n cell) (flat n cell') (map (fun p => (fst (fst p) * n + snd (fst p), snd p)) l).
Proof.
  intros N0. induction l as [|[[a b] x] l IH]; intros cell cell' B E w.
  - cbn in *. destruct (flat_word n w N0) as (j & k & K & ->). rewrite !flat_at by auto. auto.
  - cbn [map fold_left fst snd] in *. inversion B as [|? ? B1 B2]; subst. cbn [fst snd] in B1.
    rewrite (IH (fun j k => if (j =? a) && (k =? b) then x else cell j k) cell' B2 E w).
    apply fold_upd_ext. intros w'. apply flat_upd; [auto|auto|now rewrite !N.eqb_refl|].
    intros j l0 L0 [D|D]; [destruct (N.eqb_spec j a); [contradiction|reflexivity]|destruct (N.eqb_spec l0 b); [contradiction|now rewrite andb_false_r]].
Qed.
(** [words l]: the word [snd (fst p)] of slot [fst (fst p)] becomes [snd p]. *)
Ltac words n l := let F := fresh in
  pose proof (flat_writes n l) as F; cbn [map fst snd] in F; apply F; clear F;
  [lia|repeat (constructor; [cbn; lia|]); constructor|
   intros j; first [apply lt8|apply lt2]; cbn; unfold upd;
   match goal with |- context [j =? ?i] => destruct (N.eqb_spec j i) as [->|] end; reflexivity].

(** * C63 *)
(** The header fits slot 0 exactly, and different fields of different slots are different words. *)
Lemma L_C63_sizes : size_of header_fields = size_of link_fields /\ size_of header_fields = size_of index_fields /\
  (forall fs i f j g, In fs [header_fields; link_fields; index_fields; data_fields] -> In f fs -> In g fs ->
     word_at fs i f = word_at fs j g -> i = j /\ f = g) /\
  (forall fs f g i, In fs [link_fields; index_fields] -> In f header_fields -> In g fs -> 1 <= i ->
     word_at header_fields 0 f < word_at fs i g).
Proof.
  split; [reflexivity|]. split; [reflexivity|]. split.
  - intros fs i f j g FS F G E. unfold word_at in E.
    assert (P : forall h, In h fs -> position fs h < size_of fs).
    { cbn in FS. decompose [or] FS; subst; try contradiction; intros h HI; cbn in HI; decompose [or] HI; subst; try contradiction; vm_compute; reflexivity. }
    destruct (word_inj _ _ _ _ _ (P f F) (P g G) E) as [EI EP]. split; auto.
    cbn in FS. decompose [or] FS; subst; try contradiction; cbn in F, G; decompose [or] F; decompose [or] G; subst; try contradiction; try reflexivity; vm_compute in EP; discriminate.
  - intros fs f g i FS F G I. unfold word_at.
    assert (P : position header_fields f < 8).
    { cbn in F. decompose [or] F; subst; try contradiction; vm_compute; reflexivity. }
    assert (S8 : size_of fs = 8) by (cbn in FS; decompose [or] FS; subst; try contradiction; reflexivity).
    rewrite S8. lia.
Qed.
(** Every accessor of the model reads the word of the field it is named after. *)
Lemma L_C63_unit_reads st i :
  let H f := u_words st (word_at header_fields 0 f) in let L f := u_words st (word_at link_fields i f) in
  H "allocated"%string = h_alloc st /\ H "reserved"%string = h_reserved st /\ H "free"%string = h_free st /\
  H "first_free"%string = h_first st /\ H "root_as_source"%string = h_sroot st /\ H "root_as_target"%string = h_troot st /\
  H "last_free"%string = h_last st /\
  L "source"%string = fst (u_data st i) /\ L "target"%string = snd (u_data st i) /\
  L "left_as_source"%string = nl (u_src st i) /\ L "right_as_source"%string = nr (u_src st i) /\ L "size_as_source"%string = nz (u_src st i) /\
  L "left_as_target"%string = nl (u_tgt st i) /\ L "right_as_target"%string = nr (u_tgt st i) /\ L "size_as_target"%string = nz (u_tgt st i).
Proof.
  cbv zeta. unfold u_words, word_at. change (size_of header_fields) with 8. change (size_of link_fields) with 8.
  repeat split; rewrite flat_at by (vm_compute; reflexivity); reflexivity.
Qed.
Lemma L_C63_split_reads st i :
  let H f := s_iwords st (word_at header_fields 0 f) in let X f := s_iwords st (word_at index_fields i f) in
  let D f := s_dwords st (word_at data_fields i f) in
  H "allocated"%string = sh_alloc st /\ H "reserved"%string = sh_reserved st /\ H "free"%string = sh_free st /\
  H "first_free"%string = sh_first st /\ H "root_as_source"%string = sh_sroot st /\ H "root_as_target"%string = sh_troot st /\
  H "last_free"%string = sh_last st /\
  X "root_as_source"%string = s_rs st i /\ X "left_as_source"%string = nl (s_is st i) /\ X "right_as_source"%string = nr (s_is st i) /\
  X "size_as_source"%string = nz (s_is st i) /\ X "root_as_target"%string = s_rt st i /\ X "left_as_target"%string = nl (s_it st i) /\
  X "right_as_target"%string = nr (s_it st i) /\ X "size_as_target"%string = nz (s_it st i) /\
  D "source"%string = fst (s_data st i) /\ D "target"%string = snd (s_data st i).
Proof.
  cbv zeta. unfold s_iwords, s_dwords, word_at. change (size_of header_fields) with 8. change (size_of index_fields) with 8. change (size_of data_fields) with 2.
  repeat split; rewrite flat_at by (vm_compute; reflexivity); reflexivity.
Qed.
(** Every write of the models writes the words it is named after and no others. *)
Lemma L_C63_unit_writes st i s t v h d :
  let H f := word_at header_fields 0 f in let L f := word_at link_fields i f in let W := u_words st in
  writes W (u_words (set_alloc st v)) [(H "allocated"%string, v)] /\
  writes W (u_words (set_reserved st v)) [(H "reserved"%string, v)] /\
  writes W (u_words (set_src st (set_sroot (u_src st) v))) [(H "root_as_source"%string, v)] /\
  writes W (u_words (set_tgt st (set_troot (u_tgt st) v))) [(H "root_as_target"%string, v)] /\
  writes W (u_words (set_data st (upd (u_data st) i (s, t)))) [(L "source"%string, s); (L "target"%string, t)] /\
  (d = u_data st ->
   writes W (u_words (set_lhdr st h d)) [(H "free"%string, lcount h); (H "first_free"%string, lfirst h); (H "last_free"%string, llast h)]).
Proof.
  cbv zeta. unfold word_at. change (size_of header_fields) with 8. change (size_of link_fields) with 8.
  unfold u_words, set_alloc, set_reserved, set_sroot, set_troot, set_lhdr.
  repeat match goal with |- _ /\ _ => split end.
  - words 8 [(0, 0, v)].
  - words 8 [(0, 1, v)].
  - words 8 [(0, 4, v)].
  - words 8 [(0, 5, v)].
  - words 8 [(i, 0, s); (i, 1, t)].
  - intros ->. words 8 [(0, 2, lcount h); (0, 3, lfirst h); (0, 6, llast h)].
Qed.
Lemma L_C63_split_writes st i s t v h d :
  let H f := word_at header_fields 0 f in let X f := word_at index_fields i f in let D f := word_at data_fields i f in
  let W := s_iwords st in
  writes W (s_iwords (s_set_alloc st v)) [(H "allocated"%string, v)] /\
  writes W (s_iwords (s_set_reserved st v)) [(H "reserved"%string, v)] /\
  writes W (s_iwords (s_set_src st (upd (s_rs st) i v) (s_is st))) [(X "root_as_source"%string, v)] /\
  writes W (s_iwords (s_set_tgt st (upd (s_rt st) i v) (s_it st))) [(X "root_as_target"%string, v)] /\
  writes (s_dwords st) (s_dwords (s_set_data st (upd (s_data st) i (s, t)))) [(D "source"%string, s); (D "target"%string, t)] /\
  writes W (s_iwords (s_set_lhdr st h d)) [(H "free"%string, lcount h); (H "first_free"%string, lfirst h); (H "last_free"%string, llast h)].
Proof.
  cbv zeta. unfold word_at. change (size_of header_fields) with 8. change (size_of index_fields) with 8. change (size_of data_fields) with 2.
  unfold s_iwords, s_dwords, s_set_alloc, s_set_reserved, s_set_lhdr.
  repeat match goal with |- _ /\ _ => split end.
  - words 8 [(0, 0, v)].
  - words 8 [(0, 1, v)].
  - words 8 [(i, 0, v)].
  - words 8 [(i, 4, v)].
  - words 2 [(i, 0, s); (i, 1, t)].
  - words 8 [(0, 2, lcount h); (0, 3, lfirst h); (0, 6, llast h)].
Qed.
(** The first four slots of the example stores (links 1: 1 1, 2: 1 2, 3: 2 1), word by word. *)
Lemma L_C63_nonvacuous :
  map (u_words (ex_st ex3)) (map N.of_nat (seq 0 32)) =
    [3; 7; 0; 0; 1; 1; 0; 0;  1; 1; 0; 2; 3; 0; 2; 3;  1; 2; 0; 3; 2; 3; 0; 2;  2; 1; 0; 0; 1; 0; 0; 1] /\
  map (s_dwords (ex_sst ex3)) (map N.of_nat (seq 0 8)) = [0; 0; 1; 1; 1; 2; 2; 1] /\
  map (s_iwords (ex_sst ex3)) (map N.of_nat (seq 0 32)) =
    [3; 7; 0; 0; 0; 0; 0; 0;  1; 0; 2; 2; 1; 0; 3; 2;  3; 0; 0; 1; 2; 0; 0; 1;  0; 0; 0; 1; 0; 0; 0; 1].
Proof. split; [|split]; vm_compute; reflexivity. Qed.
