(** The fragments of the changelog: scripts/get-bump-type.mjs, scripts/collect-changelog.mjs and
    the notes of scripts/create-github-release.mjs. *)
From Coq Require Import Ascii String NArith List Bool Lia Permutation Sorted.
From Verif Require Import JsText Release ReleaseVersion.
Import ListNotations.
Open Scope N_scope.

(** ** What the claims are about *)
(** The names of fragments: those that end in .md, but not README.md. *)
Definition fragment_name (n : str) : Prop := (exists m, n = m ++ js ".md") /\ n <> js "README.md".
(** [x] is [s] without the blanks around it. *)
Definition trimmed (s x : str) : Prop :=
  exists w1 w2, s = w1 ++ x ++ w2 /\ blank w1 /\ blank w2 /\
  (forall c y, x = c :: y -> space c = false) /\ (forall c y, x = y ++ [c] -> space c = false).
(** blanks within a line *)
Definition gap (w : str) : Prop := blank w /\ ~ In 10 w.
(** A file with front matter [ls], a list of lines, and the text [body]. *)
Definition written (w0 : str) (ls : list str) (w1 body : str) : str :=
  js "---" ++ w0 ++ nl ++ join nl ls ++ nl ++ js "---" ++ w1 ++ nl ++ body.
(** The lines are those of front matter: the first is not blank, none begins as the closing one. *)
Definition front_lines (ls : list str) : Prop :=
  Forall (fun l => ~ In 10 l /\ forall y, l <> js "---" ++ y) ls /\
  exists c l ls', ls = (c :: l) :: ls' /\ space c = false.
Definition has_front (content : str) (ls : list str) (body : str) : Prop :=
  exists w0 w1, gap w0 /\ gap w1 /\ front_lines ls /\ content = written w0 ls w1 body.
Definition no_front (content : str) : Prop := forall y, content <> js "---" ++ y.
(** A line of front matter gives [v] for [k]. *)
Definition says (l k v : str) : Prop :=
  exists w1 w2 w3 w4, l = w1 ++ k ++ w2 ++ js ":" ++ w3 ++ v ++ w4 /\ blank w1 /\ blank w2 /\ blank w3 /\ blank w4 /\
  k <> [] /\ Forall (fun c => word c = true) k /\
  v <> [] /\ Forall (fun c => line_end c = false) v /\
  (forall c y, v = c :: y -> space c = false) /\ (forall c y, v = y ++ [c] -> space c = false).
Definition mute (l : str) : Prop := ~ In 58 l.
(** The last line for bump counts. *)
Inductive declares : list str -> option str -> Prop :=
| declares_none : declares [] None
| declares_bump ls l v : says l (js "bump") v -> declares (ls ++ [l]) (Some v)
| declares_other ls l k v o : says l k v -> k <> js "bump" -> declares ls o -> declares (ls ++ [l]) o
| declares_mute ls l o : mute l -> declares ls o -> declares (ls ++ [l]) o.
Definition fragment (content : str) (o : option str) : Prop :=
  (exists ls body, has_front content ls body /\ declares ls o) \/ (no_front content /\ o = None).
(** the three kinds in their order *)
Inductive rank : str -> N -> Prop :=
| rank_patch : rank (js "patch") 1
| rank_minor : rank (js "minor") 2
| rank_major : rank (js "major") 3.

(** ** Proofs about names and order *)
Lemma same_spec a : forall b, same a b = true <-> a = b.
Proof.
  induction a as [|c a IH]; intros [|d b]; cbn [same]; try (split; congruence || discriminate).
  rewrite andb_true_iff, N.eqb_eq, IH. split; [intros [-> ->]; reflexivity|intros E; injection E; auto].
Qed.
Lemma same_refl a : same a a = true.
Proof. now apply same_spec. Qed.
Lemma same_neq a b : a <> b -> same a b = false.
Proof. intros NE. destruct (same a b) eqn:E; auto. now apply same_spec in E. Qed.
Lemma ends_with_spec l s : ends_with l s = true <-> exists m, s = m ++ l.
Proof.
  unfold ends_with. rewrite starts_spec. split; intros [r E].
  - exists (rev r). apply (f_equal (@rev N)) in E. rewrite rev_involutive, rev_app_distr, rev_involutive in E. exact E.
  - exists (rev r). rewrite E, rev_app_distr. reflexivity.
Qed.
Lemma is_fragment_spec n : is_fragment n = true <-> fragment_name n.
Proof.
  unfold is_fragment, fragment_name. rewrite andb_true_iff, ends_with_spec. apply and_iff_compat_l.
  rewrite negb_true_iff. split.
  - intros E ->. rewrite same_refl in E. discriminate.
  - apply same_neq.
Qed.
Definition before (e e' : str * option str) : Prop := leq (fst e) (fst e') = true.
Lemma leq_refl a : leq a a = true.
Proof. induction a as [|c a IH]; auto. cbn. rewrite N.eqb_refl, IH. now rewrite orb_true_r. Qed.
Lemma leq_total a : forall b, leq a b = true \/ leq b a = true.
Proof.
  induction a as [|c a IH]; intros [|d b]; cbn [leq]; auto.
  destruct (N.ltb_spec c d) as [L|L]; [auto|]. destruct (N.ltb_spec d c) as [L2|L2]; [auto|].
  assert (c = d) as -> by lia. rewrite N.eqb_refl. cbn. apply IH.
Qed.
Lemma leq_anti a : forall b, leq a b = true -> leq b a = true -> a = b.
Proof.
  induction a as [|c a IH]; intros [|d b]; cbn [leq]; auto; try discriminate.
  destruct (N.ltb_spec c d) as [L|L]; destruct (N.ltb_spec d c) as [L2|L2]; try lia; cbn.
  - intros _. destruct (N.eqb_spec d c); [lia|]. discriminate.
  - destruct (N.eqb_spec c d); [lia|]. discriminate.
  - assert (c = d) as -> by lia. rewrite N.eqb_refl. cbn. intros. f_equal. auto.
Qed.
Lemma leq_trans a : forall b c, leq a b = true -> leq b c = true -> leq a c = true.
Proof.
  induction a as [|x a IH]; intros [|y b] [|z c]; cbn [leq]; auto; try discriminate.
  rewrite !orb_true_iff, !andb_true_iff, !N.ltb_lt, !N.eqb_eq.
  intros [L|[-> E]] [L2|[-> E2]]; try (left; lia). right. eauto.
Qed.
Lemma insert_perm e l : Permutation (e :: l) (insert e l).
Proof.
  induction l as [|e' l IH]; cbn [insert]; auto. destruct (leq (fst e) (fst e')); auto.
  rewrite perm_swap. now constructor.
Qed.
Lemma sort_perm l : Permutation l (fold_right insert [] l).
Proof. induction l as [|e l IH]; auto. cbn [fold_right]. rewrite <- insert_perm. now constructor. Qed.
Lemma insert_sorted e l : StronglySorted before l -> StronglySorted before (insert e l).
Proof.
  induction 1 as [|e' l S IH F]; cbn [insert]; [repeat constructor|]. destruct (leq (fst e) (fst e')) eqn:E.
  - constructor; [now constructor|]. constructor; auto. rewrite Forall_forall in *. intros x I. apply F in I. unfold before in *. eapply leq_trans; eauto.
  - constructor; auto. rewrite Forall_forall in *. intros x I. apply (Permutation_in _ (Permutation_sym (insert_perm e l))) in I.
    destruct I as [->|I]; auto. unfold before. destruct (leq_total (fst e') (fst x)) as [L|L]; auto. congruence.
Qed.
Lemma sort_sorted l : StronglySorted before (fold_right insert [] l).
Proof. induction l; cbn [fold_right]; [constructor|]. now apply insert_sorted. Qed.
Lemma sorted_unique l : forall l', Permutation l l' -> NoDup (map fst l) -> StronglySorted before l -> StronglySorted before l' -> l = l'.
Proof.
  induction l as [|e l IH]; intros l' P ND S S'.
  - apply Permutation_nil in P. now subst.
  - destruct l' as [|e' l']; [apply Permutation_sym, Permutation_nil in P; discriminate|].
    inversion S as [|? ? S1 F1]; subst. inversion S' as [|? ? S2 F2]; subst. rewrite Forall_forall in F1, F2.
    assert (e = e').
    { assert (I : In e (e' :: l')) by (apply (Permutation_in _ P); now left).
      assert (I' : In e' (e :: l)) by (apply (Permutation_in _ (Permutation_sym P)); now left).
      destruct I as [E|I]; auto. destruct I' as [E|I']; auto.
      assert (EF : fst e = fst e') by (apply leq_anti; [now apply F1|now apply F2]).
      exfalso. inversion ND as [|? ? NI _]; subst. apply NI. rewrite EF. now apply in_map. }
    subst e'. f_equal. inversion ND; subst. apply IH; auto. now apply Permutation_cons_inv in P.
Qed.
Definition frags (l : list (str * option str)) := filter (fun e : str * option str => is_fragment (fst e)) l.
Lemma perm_filter {A} (p : A -> bool) l l' : Permutation l l' -> Permutation (filter p l) (filter p l').
Proof.
  induction 1 as [|x l l' P IH|x y l|l1 l2 l3 P1 IH1 P2 IH2]; cbn [filter]; auto.
  - destruct (p x); auto.
  - destruct (p x), (p y); auto. constructor.
  - etransitivity; eauto.
Qed.
Lemma nodup_map_filter {A B} (f : A -> B) p l : NoDup (map f l) -> NoDup (map f (filter p l)).
Proof.
  induction l as [|x l IH]; cbn; auto. intros ND. inversion ND; subst. destruct (p x); auto. cbn. constructor; auto.
  intros I. apply in_map_iff in I as (y & E & I). apply filter_In in I as [I _]. apply H1. rewrite <- E. now apply in_map.
Qed.
Lemma fragments_order l l' : Permutation l l' -> NoDup (map fst l) -> sorted_fragments l = sorted_fragments l'.
Proof.
  intros P ND. unfold sorted_fragments. apply sorted_unique; auto using sort_sorted.
  - rewrite <- (sort_perm (frags l)), <- (sort_perm (frags l')). now apply perm_filter.
  - apply (Permutation_NoDup (l := map fst (frags l))); [apply Permutation_map, sort_perm|]. now apply nodup_map_filter.
Qed.
Lemma fragments_in l e : In e (sorted_fragments l) <-> In e l /\ fragment_name (fst e).
Proof.
  rewrite <- is_fragment_spec, <- (filter_In (fun e => is_fragment (fst e))). unfold sorted_fragments.
  split; apply Permutation_in; [apply Permutation_sym|]; apply sort_perm.
Qed.
Lemma fragments_perm l : Permutation (frags l) (sorted_fragments l).
Proof. apply sort_perm. Qed.

(** ** Front matter *)
Lemma lines_cons_nl s : lines (10 :: s) = [] :: lines s.
Proof. reflexivity. Qed.
Lemma lines_app l s : ~ In 10 l -> lines (l ++ nl ++ s) = l :: lines s.
Proof.
  induction l as [|c l IH]; intros NI; [reflexivity|]. cbn [app lines].
  destruct (N.eqb_spec c 10) as [->|NE]; [exfalso; apply NI; now left|]. rewrite IH; auto. intros I. apply NI. now right.
Qed.
Lemma lines_one l : ~ In 10 l -> lines l = [l].
Proof.
  induction l as [|c l IH]; intros NI; [reflexivity|]. cbn [lines].
  destruct (N.eqb_spec c 10) as [->|NE]; [exfalso; apply NI; now left|]. rewrite IH; auto. intros I. apply NI. now right.
Qed.
Lemma lines_join ls : ls <> [] -> Forall (fun l => ~ In 10 l) ls -> lines (join nl ls) = ls.
Proof.
  induction ls as [|l ls IH]; [contradiction|]. intros _ F. inversion F; subst. cbn [join]. destruct ls as [|l' ls].
  - now apply lines_one.
  - rewrite lines_app; auto. rewrite IH; auto. discriminate.
Qed.
(** no closing line within front matter *)
Lemma split_nl (l : str) : ~ In 10 l -> forall u s0 z, l ++ 10 :: s0 = u ++ 10 :: z -> (u = l /\ s0 = z) \/ exists u', u = l ++ 10 :: u' /\ s0 = u' ++ 10 :: z.
Proof.
  induction l as [|c l IH]; intros NI [|d u] s0 z E; cbn in E.
  - injection E as ->. auto.
  - injection E as <- ->. right. exists u. auto.
  - injection E as -> _. exfalso. apply NI. now left.
  - injection E as -> E. destruct (IH (fun I => NI (or_intror I)) u s0 z E) as [[-> ->]|(u' & -> & ->)]; auto. right. now exists u'.
Qed.
Lemma dashes_line (l z y : str) : (z = [] \/ exists z', z = 10 :: z') -> l ++ z = js "---" ++ y -> exists y', l = js "---" ++ y'.
Proof.
  intros Z E.
  destruct l as [|a l]; [destruct Z as [->|[z' ->]]; discriminate|]. cbn in E. injection E as -> E.
  destruct l as [|a l]; [destruct Z as [->|[z' ->]]; discriminate|]. cbn in E. injection E as -> E.
  destruct l as [|a l]; [destruct Z as [->|[z' ->]]; discriminate|]. cbn in E. injection E as -> E.
  exists l. reflexivity.
Qed.
Definition line_of_front (l : str) : Prop := ~ In 10 l /\ forall y, l <> js "---" ++ y.
Lemma no_close_in ls : Forall line_of_front ls -> forall t1 y, join nl ls <> t1 ++ 10 :: js "---" ++ y.
Proof.
  induction 1 as [|l ls [NI ND] F IH]; intros t1 y E.
  - destruct t1; discriminate.
  - cbn [join] in E. destruct ls as [|l' ls].
    + apply NI. rewrite E. apply in_app_iff. right. now left.
    + change (nl ++ ?x) with (10 :: x) in E. destruct (split_nl l NI t1 _ _ E) as [[-> E2]|(u' & -> & E2)]; [|now apply IH in E2].
      inversion F as [|? ? [_ ND'] _]; subst. cbn [join] in E2. destruct ls as [|l2 ls].
      * now apply ND' in E2.
      * apply dashes_line in E2 as [y' ->]; [now apply (ND' y')|]. right. now eexists.
Qed.
Lemma no_close ls : Forall line_of_front ls ->
  forall s t1 t2, join nl ls = t1 ++ t2 -> t2 <> [] -> strip (nl ++ js "---") (t2 ++ nl ++ js "---" ++ s) = None.
Proof.
  intros F s t1 t2 E NE. destruct (strip _ _) as [r|] eqn:S; auto. exfalso. apply strip_spec in S.
  destruct t2 as [|c t2]; [contradiction|]. clear NE. cbn [app nl] in S. injection S as -> S.
  apply dashes_line in S as [y ->] || idtac.
  - now apply (no_close_in ls F t1 y).
  - right. eexists. reflexivity.
Qed.
(** blanks up to the end of a line, when the next line is not blank *)
Lemma mt_gap r : forall w prev c s ps rest, gap w -> space c = false ->
  mt r (Some 10) (c :: s) = Some (ps, rest) -> mt (Many space :: Lit nl :: r) prev (w ++ nl ++ c :: s) = Some (w :: nl :: ps, rest).
Proof.
  assert (NC : forall prev c s, space c = false -> mt (Many space :: Lit nl :: r) prev (c :: s) = None).
  { intros prev c s SC. apply mt_not. intros [|p ps] rest F; [contradiction|]. destruct F as (s' & E & O & F). cbn [okp] in O.
    destruct p as [|d p].
    - cbn in E. subst s'. destruct ps as [|q ps]; [contradiction|]. destruct F as (s2 & E & -> & _). cbn in E. injection E as -> _. discriminate.
    - cbn in E. injection E as <- _. cbn in O. rewrite SC in O. discriminate. }
  induction w as [|d w IH]; intros prev c s ps rest [B NI] SC M.
  - cbn [app nl]. specialize (NC (Some 10) c s SC). cbn [mt] in NC |- *. change (space 10) with true. cbn iota. rewrite NC. cbn [longer].
    change (strip nl (10 :: c :: s)) with (Some (c :: s)). cbn iota. change (lastc prev nl) with (Some 10). now rewrite M.
  - inversion B; subst. cbn [app]. assert (X : mt (Many space :: Lit nl :: r) (Some d) (w ++ nl ++ c :: s) = Some (w :: nl :: ps, rest)).
    { apply IH; auto. split; auto. intros I. apply NI. now right. }
    cbn [mt] in X |- *. rewrite H1, X. reflexivity.
Qed.
(** the closing line and what follows *)
Lemma mt_body prev w body : gap w -> exists w' t bl, blank bl /\ body = bl ++ t /\
  mt [Many space; Lit nl; Many anything; Eos] prev (w ++ nl ++ body) = Some ([w'; nl; t; []], []).
Proof.
  intros [B NI]. assert (AN : forall x, forallb anything x = true) by (induction x; auto).
  assert (FT : fits [Many space; Lit nl; Many anything; Eos] prev (w ++ nl ++ body) [w; nl; body; []] []).
  { exists (nl ++ body). split; auto. split; [now apply blank_spec|]. exists body. split; auto. split; [reflexivity|].
    exists []. split; [now rewrite app_nil_r|]. split; [apply AN|]. exists []. repeat split. }
  apply mt_complete in FT. destruct (mt _ prev _) as [[ps rest]|] eqn:E; [|contradiction]. clear FT.
  pose proof (mt_sound _ _ _ _ _ E) as F.
  destruct ps as [|w' ps]; [contradiction|]. destruct F as (s1 & E1 & B1 & F).
  destruct ps as [|p1 ps]; [contradiction|]. destruct F as (s2 & -> & -> & F).
  destruct ps as [|t ps]; [contradiction|]. destruct F as (s3 & -> & _ & F).
  destruct ps as [|p3 ps]; [contradiction|]. destruct F as (s4 & -> & [-> ->] & F).
  destruct ps; [|contradiction]. cbn in F. subst rest. rewrite app_nil_r in E1. cbn [okp] in B1. apply blank_spec in B1.
  change (nl ++ ?x) with (10 :: x) in E1. destruct (split_nl w NI w' body t E1) as [[-> ->]|(u & -> & ->)].
  - exists w, t, []. split; [constructor|]. auto.
  - exists (w ++ 10 :: u), t, (u ++ nl). split; [|split; auto].
    + unfold blank in *. apply Forall_app in B1 as [_ B1]. inversion B1; subst. apply Forall_app. split; auto. repeat constructor.
    + now rewrite <- app_assoc.
Qed.
Lemma front_ok content ls body : has_front content ls body -> exists w0 w' t bl, blank bl /\ body = bl ++ t /\
  exec r_front content = Some ([], [[]; js "---"; w0; nl; join nl ls; nl ++ js "---"; w'; nl; t; []], []).
Proof.
  intros (w0 & w1 & G0 & G1 & (F & c & l & ls' & E & SC) & ->).
  destruct (mt_body (lastc (lastc (Some 10) (join nl ls)) (nl ++ js "---")) w1 body G1) as (w' & t & bl & BB & EB & M).
  exists w0, w', t, bl. split; auto. split; auto. unfold exec.
  assert (AN : forall x, forallb anything x = true) by (induction x; auto).
  apply (find_first r_front [] None (written w0 ls w1 body)); [intros [|] [|] X; discriminate || contradiction|].
  change (lastc None []) with (@None N). unfold r_front, written. apply mt_bos. apply mt_lit.
  assert (E2 : exists z, join nl ls ++ nl ++ js "---" ++ w1 ++ nl ++ body = c :: z).
  { subst ls. cbn [join]. destruct ls'; cbn [app]; eexists; reflexivity. }
  destruct E2 as [z E2]. rewrite E2. apply mt_gap; auto. rewrite <- E2.
  apply mt_few.
  - apply AN.
  - intros t1 t2 E3 NE. cbn [mt]. now rewrite (no_close ls F _ t1 t2 E3 NE).
  - change (nl ++ js "---" ++ w1 ++ nl ++ body) with ((nl ++ js "---") ++ w1 ++ nl ++ body). apply mt_lit. exact M.
Qed.
Lemma no_front_ok content : no_front content -> exec r_front content = None.
Proof.
  intros NF. unfold exec. apply find_none. intros b x ->. apply mt_not. intros ps rest F.
  destruct ps as [|p0 ps]; [contradiction|]. destruct F as (s0 & -> & [-> P] & F).
  destruct ps as [|p1 ps]; [contradiction|]. destruct F as (s1 & -> & -> & _).
  destruct b as [|c b]; [now apply (NF s1)|]. clear -P. 
  assert (X : forall (b : str) q, q <> None -> lastc q b <> None) by (induction b0 as [|d b0 IH]; cbn; auto; intros; apply IH; discriminate).
  apply (X b (Some c)); [discriminate|exact P].
Qed.

(** trim *)
Lemma skip_all w s : blank w -> skip space (w ++ s) = skip space s.
Proof. induction 1 as [|c w C B IH]; auto. cbn. now rewrite C. Qed.
Lemma skip_stop c s : space c = false -> skip space (c :: s) = c :: s.
Proof. intros C. cbn. now rewrite C. Qed.
Lemma skip_split s : exists w, blank w /\ s = w ++ skip space s /\ forall c y, skip space s = c :: y -> space c = false.
Proof.
  induction s as [|c s (w & B & E & N)]; [exists []; repeat split; [constructor|discriminate]|]. cbn [skip]. destruct (space c) eqn:C.
  - exists (c :: w). split; [now constructor|]. split; auto. cbn. congruence.
  - exists []. split; [constructor|]. split; auto. intros d y E2. injection E2 as <- _. exact C.
Qed.
Lemma blank_rev w : blank w -> blank (rev w).
Proof. unfold blank. rewrite !Forall_forall. intros B c I. apply B. now apply in_rev. Qed.
Lemma trim_ok s : trimmed s (trim s).
Proof.
  unfold trim. destruct (skip_split s) as (w1 & B1 & E1 & N1). destruct (skip_split (rev (skip space s))) as (w2 & B2 & E2 & N2).
  set (x := skip space (rev (skip space s))) in *.
  assert (E3 : skip space s = rev x ++ rev w2).
  { apply (f_equal (@rev N)) in E2. rewrite rev_involutive, rev_app_distr in E2. exact E2. }
  exists w1, (rev w2). split; [congruence|]. split; auto. split; [now apply blank_rev|]. split.
  - intros c y E. rewrite E in E3. cbn in E3. now apply (N1 c (y ++ rev w2)).
  - intros c y E. apply (f_equal (@rev N)) in E. rewrite rev_involutive, rev_app_distr in E. cbn in E. now apply (N2 c (rev y)).
Qed.
Lemma trimmed_trim s x : trimmed s x -> trim s = x.
Proof.
  intros (w1 & w2 & -> & B1 & B2 & F & L). unfold trim. rewrite skip_all; auto.
  destruct x as [|c x].
  - cbn [app]. replace w2 with (w2 ++ []) by apply app_nil_r. rewrite skip_all; auto.
  - cbn [app]. rewrite skip_stop; [|now apply (F c x)]. rewrite app_comm_cons, rev_app_distr, skip_all; [|now apply blank_rev].
    destruct (rev (c :: x)) as [|d y] eqn:E.
    + apply (f_equal (@rev N)) in E. rewrite rev_involutive in E. discriminate.
    + apply (f_equal (@rev N)) in E. rewrite rev_involutive in E. rewrite skip_stop; [now rewrite E|]. apply (L d (rev y)). rewrite E. reflexivity.
Qed.
Lemma trim_blank bl t : blank bl -> trim (bl ++ t) = trim t.
Proof. intros B. unfold trim. now rewrite skip_all. Qed.
Lemma strip_front_ok content ls body : has_front content ls body -> strip_front content = trim body.
Proof.
  intros H. destruct (front_ok _ _ _ H) as (w0 & w' & t & bl & B & -> & E). unfold strip_front. rewrite E.
  unfold pieces. cbn [firstn skipn List.concat]. rewrite ?app_nil_r. now rewrite trim_blank.
Qed.

(** lines *)
Lemma says_pair l k v : says l k v -> line_pair l = Some (k, v).
Proof.
  intros (w1 & w2 & w3 & w4 & -> & B1 & B2 & B3 & B4 & NEk & Wk & NEv & Dv & Fv & Lv). apply blank_spec in B1, B2, B3, B4.
  assert (Wk' : forallb word k = true) by (apply forallb_forall; now rewrite Forall_forall in Wk).
  assert (Dv' : forallb dot v = true) by (apply forallb_forall; rewrite Forall_forall in Dv; intros c I; unfold dot; now rewrite Dv).
  assert (WS : forall c, word c = true -> space c = false).
  { intros c. unfold word, digit, space. rewrite !orb_true_iff, !andb_true_iff, !N.leb_le, N.eqb_eq. intros H.
    repeat rewrite orb_false_iff. repeat split; try (apply andb_false_iff); try (apply N.eqb_neq); try lia;
    destruct H as [[[[H1 H2]|[H1 H2]]|[H1 H2]]|H1]; rewrite ?N.leb_gt; lia. }
  destruct v as [|cv v]; [contradiction|]. destruct k as [|ck k]; [contradiction|].
  cbn [forallb] in Wk', Dv'. apply andb_true_iff in Wk' as [Wc Wk']. apply andb_true_iff in Dv' as [Dc Dv'].
  assert (T : mt [Many space; Eos] (lastc (Some cv) v) w4 = Some ([w4; []], [])).
  { pose proof (mt_many space [Eos] w4 (lastc (Some cv) v) [] [[]] [] B4 ltac:(discriminate) ltac:(now apply mt_eos)) as X. now rewrite app_nil_r in X. }
  assert (M : exists w1' , mt r_line None (w1 ++ (ck :: k) ++ w2 ++ js ":" ++ w3 ++ (cv :: v) ++ w4) =
    Some ([[]; w1'; [ck]; k; w2; js ":"; w3; [cv]; v; w4; []], [])).
  { exists w1. unfold r_line. apply mt_bos. apply mt_many; auto.
    { intros c s' E. injection E as <- _. auto. }
    cbn [app]. apply mt_ch; auto. apply mt_many; auto.
    { intros c s' E. destruct w2 as [|d w2]; cbn in E; injection E as <- _; [reflexivity|]. cbn in B2. apply andb_true_iff in B2 as [B2 _].
      destruct (word d) eqn:W; auto. apply WS in W. congruence. }
    apply mt_many; auto. { intros c s' E. injection E as <- _. reflexivity. }
    apply (mt_lit (js ":")). apply mt_many; auto.
    { intros c s' E. injection E as <- _. now apply (Fv cv v). }
    apply mt_ch; auto. apply mt_few; auto.
    intros t1 t2 -> NE. apply mt_not. intros ps rest F.
    destruct ps as [|p0 ps]; [contradiction|]. destruct F as (s0 & E0 & O0 & F).
    destruct ps as [|p1 ps]; [contradiction|]. destruct F as (s1 & -> & [-> ->] & F). cbn [app] in E0. rewrite app_nil_r in E0. subst p0.
    cbn [okp] in O0. rewrite forallb_app in O0. apply andb_true_iff in O0 as [O0 _].
    destruct (exists_last NE) as (y & c & ->). rewrite forallb_app in O0. apply andb_true_iff in O0 as [_ O0]. cbn in O0. rewrite andb_true_r in O0.
    rewrite (Lv c ((cv :: t1) ++ y)) in O0; [discriminate|]. cbn. now rewrite app_assoc. }
  destruct M as [w1' M]. unfold line_pair, exec.
  pose proof (find_first r_line [] None _ _ _ ltac:(intros [|] [|] X; discriminate || contradiction) M) as X.
  change ([] ++ ?x) with x in X. rewrite X.
  unfold pieces. cbn [firstn skipn List.concat app]. now rewrite ?app_nil_r.
Qed.
Lemma mute_none l : mute l -> line_pair l = None.
Proof.
  intros NI. unfold line_pair, exec. rewrite find_none; auto. intros b x ->. apply mt_not. intros ps rest F.
  destruct ps as [|p0 ps]; [contradiction|]. destruct F as (s0 & -> & _ & F).
  destruct ps as [|p1 ps]; [contradiction|]. destruct F as (s1 & -> & _ & F).
  destruct ps as [|p2 ps]; [contradiction|]. destruct F as (s2 & -> & _ & F).
  destruct ps as [|p3 ps]; [contradiction|]. destruct F as (s3 & -> & _ & F).
  destruct ps as [|p4 ps]; [contradiction|]. destruct F as (s4 & -> & _ & F).
  destruct ps as [|p5 ps]; [contradiction|]. destruct F as (s5 & -> & -> & F).
  apply NI. rewrite !in_app_iff. do 6 right. left. now left.
Qed.
Lemma declares_ok ls o : declares ls o -> last_bump ls = o.
Proof.
  unfold last_bump. induction 1 as [|ls l v S|ls l k v o S NE D IH|ls l o MU D IH]; auto; rewrite fold_left_app; cbn [fold_left].
  - rewrite (says_pair _ _ _ S), same_refl. reflexivity.
  - rewrite (says_pair _ _ _ S), same_neq; auto.
  - rewrite (mute_none _ MU). exact IH.
Qed.
Lemma fragment_ok content o : fragment content o -> bump_of content = o.
Proof.
  intros [(ls & body & H & D)|[NF ->]]; unfold bump_of; [|now rewrite (no_front_ok _ NF)].
  destruct (front_ok _ _ _ H) as (w0 & w' & t & bl & _ & _ & E). rewrite E. unfold pieces. cbn [firstn skipn List.concat]. rewrite ?app_nil_r.
  destruct H as (? & ? & _ & _ & (F & c & l & ls' & E2 & _) & _).
  rewrite lines_join; [now apply declares_ok|subst ls; discriminate|]. eapply Forall_impl; [|exact F]. now intros ? [? _].
Qed.

(** the highest *)
Lemma rank_priority b n : rank b n -> priority b = n /\ 0 < n.
Proof. destruct 1; split; reflexivity. Qed.
Lemma priority_rank b : 0 < priority b -> rank b (priority b).
Proof.
  unfold priority. destruct (same b (js "patch")) eqn:E1; [apply same_spec in E1; subst; intros; constructor|].
  destruct (same b (js "minor")) eqn:E2; [apply same_spec in E2; subst; intros; constructor|].
  destruct (same b (js "major")) eqn:E3; [apply same_spec in E3; subst; intros; constructor|]. lia.
Qed.
Lemma highest_ok l : forall p b, (forall e, In e l -> exists c, snd e = Some c) ->
  exists r, highest l p b = Got r /\
  ((r = b /\ forall n c x, In (n, Some c) l -> bump_of c = Some x -> priority x <= p) \/
   (p < priority r /\ (exists n c, In (n, Some c) l /\ bump_of c = Some r) /\
    forall n c x, In (n, Some c) l -> bump_of c = Some x -> priority x <= priority r)).
Proof.
  induction l as [|[n [c|]] l IH]; intros p b RD.
  - exists b. split; auto. left. split; auto. intros ? ? ? [].
  - assert (RD' : forall e, In e l -> exists c, snd e = Some c) by (intros; apply RD; now right). cbn [highest].
    assert (K : forall p' b', (forall x, bump_of c = Some x -> priority x <= p') -> p' <= p -> p <= p' -> b' = b -> exists r, highest l p' b' = Got r /\
      ((r = b /\ forall n0 c0 x, In (n0, Some c0) ((n, Some c) :: l) -> bump_of c0 = Some x -> priority x <= p) \/
       (p < priority r /\ (exists n0 c0, In (n0, Some c0) ((n, Some c) :: l) /\ bump_of c0 = Some r) /\
        forall n0 c0 x, In (n0, Some c0) ((n, Some c) :: l) -> bump_of c0 = Some x -> priority x <= priority r))).
    { intros p' b' W L1 L2 ->. assert (p' = p) as -> by lia. destruct (IH p b RD') as (r & E & C). exists r. split; auto.
      destruct C as [[-> M]|(L & (n1 & c1 & I1 & B1) & M)]; [left|right].
      - split; auto. intros n0 c0 x [X|I] B; [injection X as <- <-; auto|eauto].
      - split; auto. split; [exists n1, c1; split; auto; now right|]. intros n0 c0 x [X|I] B; [injection X as <- <-; apply W in B; lia|eauto]. }
    destruct (bump_of c) as [x|] eqn:B.
    + destruct (N.ltb_spec p (priority x)) as [L|L].
      * destruct (IH (priority x) x RD') as (r & E & C). exists r. split; auto. right.
        destruct C as [[-> M]|(L2 & (n1 & c1 & I1 & B1) & M)].
        -- split; auto. split; [exists n, c; split; auto; now left|]. intros n0 c0 y [X|I] B0; [injection X as <- <-; rewrite B in B0; injection B0 as <-; lia|eauto].
        -- split; [lia|]. split; [exists n1, c1; split; auto; now right|]. intros n0 c0 y [X|I] B0; [injection X as <- <-; rewrite B in B0; injection B0 as <-; lia|eauto].
      * apply K; auto; try lia. intros y E. injection E as <-. exact L.
    + apply K; auto; try lia. discriminate.
  - destruct (RD (n, None) (or_introl eq_refl)) as [c E]. discriminate.
Qed.

(** ** C90: the kind of bump *)
Definition readable (l : list (str * option str)) : Prop :=
  forall n o, In (n, o) l -> fragment_name n -> exists c d, o = Some c /\ fragment c d.
(** the entries, parted into fragments and others *)
Definition parted (l fs rest : list (str * option str)) : Prop :=
  Permutation l (fs ++ rest) /\ Forall (fun e => fragment_name (fst e)) fs /\ Forall (fun e => ~ fragment_name (fst e)) rest.
Definition bump_outputs (b : str) (count : str) (any : bool) : outputs :=
  [(js "bump_type", b); (js "fragment_count", count); (js "has_fragments", if any then js "true" else js "false")].

Lemma part l : parted l (sorted_fragments l) (without_fragments l).
Proof.
  unfold parted. split; [rewrite <- fragments_perm|split].
  - unfold frags, without_fragments. induction l as [|e l IH]; cbn [filter]; auto. destruct (is_fragment (fst e)); cbn [negb app].
    + now constructor.
    + apply Permutation_cons_app. exact IH.
  - apply Forall_forall. intros e I. now apply fragments_in in I.
  - apply Forall_forall. intros e I F. apply is_fragment_spec in F. unfold without_fragments in I. apply filter_In in I as [_ I]. rewrite F in I. discriminate.
Qed.
Lemma sorted_in l n o : In (n, o) (sorted_fragments l) <-> In (n, o) l /\ fragment_name n.
Proof. exact (fragments_in l (n, o)). Qed.

Lemma L_C90_highest def t l : entries t = Some l -> readable l ->
  exists b s fs rest, parted l fs rest /\ reads s (N.of_nat (length fs)) /\
  get_bump_type def t = (bump_outputs b s (match fs with [] => false | _ => true end), Exit0) /\
  ((b = def /\ forall n c x r, In (n, Some c) l -> fragment_name n -> fragment c (Some x) -> ~ rank x r) \/
   (exists r, rank b r /\ (exists n c, In (n, Some c) l /\ fragment_name n /\ fragment c (Some b)) /\
    forall n c x r', In (n, Some c) l -> fragment_name n -> fragment c (Some x) -> rank x r' -> r' <= r)).
Proof.
  intros E RD. pose proof (part l) as P. unfold get_bump_type, determine. rewrite E.
  assert (RD' : forall e, In e (sorted_fragments l) -> exists c, snd e = Some c).
  { intros [n o] I. apply sorted_in in I as [I F]. destruct (RD n o I F) as (c & d & -> & _). exists c. reflexivity. }
  assert (BF : forall n c x, In (n, Some c) l -> fragment_name n -> bump_of c = Some x -> fragment c (Some x)).
  { intros n c x I F B. destruct (RD n (Some c) I F) as (c' & d & X & FR). injection X as <-. pose proof (fragment_ok _ _ FR). congruence. }
  destruct (sorted_fragments l) as [|e fs] eqn:SF.
  - exists def, (dec 0), [], (without_fragments l). split; [rewrite <- SF; apply part|]. split; [apply (dec_reads 0)|]. split; [reflexivity|].
    left. split; auto. intros n c x r I F FR R. assert (X : In (n, Some c) (sorted_fragments l)) by (now apply sorted_in). rewrite SF in X. destruct X.
  - destruct (highest_ok (e :: fs) 0 def RD') as (b & EH & C). rewrite EH.
    exists b, (dec (N.of_nat (length (e :: fs)))), (e :: fs), (without_fragments l). split; [exact P|]. split; [apply dec_reads|]. split.
    { assert (L : 0 <? N.of_nat (length (e :: fs)) = true) by (apply N.ltb_lt; cbn [length]; lia). rewrite L. reflexivity. }
    destruct C as [[-> M]|(L & (n & c & I & B) & M)]; [left|right].
    + split; auto. intros n c x r I F FR R. apply rank_priority in R as [R L]. 
      assert (X : In (n, Some c) (e :: fs)) by (rewrite <- SF; now apply sorted_in). specialize (M n c x X (fragment_ok _ _ FR)). lia.
    + exists (priority b). split; [apply priority_rank; exact L|]. rewrite <- SF in I. apply sorted_in in I as [I F].
      split; [exists n, c; split; auto; split; auto; eapply BF; eauto|]. intros n' c' x r' I' F' FR R. apply rank_priority in R as [<- _].
      eapply M; [rewrite <- SF; apply sorted_in; split; eauto|]. now apply fragment_ok.
Qed.
(** The characters of the patterns: white space, ends of lines, and those of words. *)
Lemma L_C90_characters c :
  (space c = true <-> In c [9; 10; 11; 12; 13; 32; 160; 5760; 8192; 8193; 8194; 8195; 8196; 8197; 8198; 8199; 8200; 8201; 8202; 8232; 8233; 8239; 8287; 12288; 65279]) /\
  (line_end c = true <-> In c [10; 13; 8232; 8233]) /\
  (word c = true <-> In c (js "0123456789ABCDEFGHIJKLMNOPQRSTUVWXYZ_abcdefghijklmnopqrstuvwxyz")) /\
  (digit c = true <-> In c (js "0123456789")).
Proof.
  assert (D : digit c = true <-> In c (js "0123456789")).
  { unfold digit. cbn [js N_of_ascii N_of_digits In]. rewrite andb_true_iff, !N.leb_le. split; [|lia]. intros R. assert (E : c = 48 + (c - 48)) by lia.
    set (k := c - 48) in *. assert (K : k <= 9) by lia. rewrite E. clearbody k. clear -K. lia. }
  split; [|split; [|split; [|exact D]]].
  - unfold space. cbn [In]. rewrite !orb_true_iff, !andb_true_iff, !N.leb_le, !N.eqb_eq. lia.
  - unfold line_end. cbn [In]. rewrite !orb_true_iff, !N.eqb_eq. intuition auto.
  - unfold word. rewrite !orb_true_iff, !andb_true_iff, !N.leb_le, N.eqb_eq, D. cbn [js N_of_ascii N_of_digits In]. lia.
Qed.
Lemma L_C90_no_directory def t : entries t = None -> get_bump_type def t = (bump_outputs def (js "0") false, Exit0).
Proof. intros E. unfold get_bump_type, determine. rewrite E. reflexivity. Qed.
Lemma L_C90_unreadable def t l n : entries t = Some l -> In (n, None) l -> fragment_name n -> get_bump_type def t = ([], Exit1).
Proof.
  intros E I F. unfold get_bump_type, determine. rewrite E.
  assert (X : In (n, None) (sorted_fragments l)) by (now apply sorted_in).
  destruct (sorted_fragments l) as [|e fs] eqn:SF; [destruct X|].
  assert (H : forall l p b, In (n, None) l -> highest l p b = Fails).
  { clear. induction l as [|[m [c|]] l IH]; intros p b I; auto; [destruct I|]. destruct I as [X|I]; [discriminate|]. cbn [highest].
    destruct (bump_of c) as [x|]; [destruct (p <? priority x)|]; auto. }
  now rewrite H.
Qed.
Lemma L_C90_order def c c' log log' l l' : Permutation l l' -> NoDup (map fst l) ->
  get_bump_type def (Repo c log (Some l)) = get_bump_type def (Repo c' log' (Some l')).
Proof. intros P ND. unfold get_bump_type, determine. cbn [entries]. now rewrite (fragments_order l l'). Qed.
(** what a fragment counts for, by changelog.d/README.md: as declared, otherwise patch *)
Definition counts (c : str) (r : N) : Prop :=
  exists o, fragment c o /\ ((exists x, o = Some x /\ rank x r) \/ (r = 1 /\ forall x r', o = Some x -> ~ rank x r')).
Lemma L_C90_default_patch t l : entries t = Some l -> readable l ->
  exists b r s any, get_bump_type (js "patch") t = (bump_outputs b s any, Exit0) /\ rank b r /\
  (forall n c r', In (n, Some c) l -> fragment_name n -> counts c r' -> r' <= r) /\
  ((exists n c, In (n, Some c) l /\ fragment_name n /\ counts c r) \/ (r = 1 /\ forall n o, In (n, o) l -> ~ fragment_name n)).
Proof.
  intros E RD. destruct (L_C90_highest (js "patch") t l E RD) as (b & s & fs & rest & (P & PF & PR) & _ & G & C).
  assert (R1 : forall x r, rank x r -> 1 <= r) by (intros ? ? []; lia).
  assert (FN : forall c o o', fragment c o -> fragment c o' -> o = o') by (intros c o o' A B; apply fragment_ok in A, B; congruence).
  destruct C as [[-> M]|(r & R & (n & c & I & F & FR) & M)].
  - exists (js "patch"), 1, s, (match fs with [] => false | _ => true end). split; auto. split; [constructor|]. split.
    + intros n c r' I F (o & FR & [(x & -> & R)|[-> _]]); [|lia]. exfalso. eapply M; eauto.
    + destruct fs as [|[n o] fs].
      * right. split; auto. intros n o I F. cbn in P. apply (Permutation_in _ P) in I. rewrite Forall_forall in PR. now apply (PR _ I).
      * left. inversion PF as [|? ? F _]; subst. cbn in F. assert (I : In (n, o) l) by (apply (Permutation_in _ (Permutation_sym P)); now left).
        destruct (RD n o I F) as (c & d & -> & FR). exists n, c. split; auto. split; auto. exists d. split; auto. right. split; auto.
        intros x r' -> R. eapply M; eauto.
  - exists b, r, s, (match fs with [] => false | _ => true end). split; auto. split; auto. split.
    + intros n' c' r' I' F' (o & FR' & [(x & -> & R')|[-> _]]); [eapply M; eauto|eauto].
    + left. exists n, c. split; auto. split; auto. exists (Some b). split; auto. left. eauto.
Qed.

(** fragments as the README describes them *)
Definition ex_front (lines body : string) : str := js "---
" ++ js lines ++ js "
---

" ++ js body.
Lemma ex_says k v : k <> [] -> Forall (fun c => word c = true) k -> v <> [] -> Forall (fun c => line_end c = false) v ->
  (forall c y, v = c :: y -> space c = false) -> (forall c y, v = y ++ [c] -> space c = false) -> says (k ++ js ": " ++ v) k v.
Proof.
  intros. exists [], [], (js " "), []. rewrite app_nil_r. repeat split; auto; repeat constructor.
Qed.
Lemma ex_word_says x : In x [js "patch"; js "minor"; js "major"] -> says (js "bump: " ++ x) (js "bump") x.
Proof.
  intros I. apply (ex_says (js "bump") x); try discriminate.
  - repeat constructor.
  - destruct I as [<-|[<-|[<-|[]]]]; discriminate.
  - destruct I as [<-|[<-|[<-|[]]]]; repeat constructor.
  - destruct I as [<-|[<-|[<-|[]]]]; intros c y E; injection E as <- _; reflexivity.
  - destruct I as [<-|[<-|[<-|[]]]]; intros c y E; apply (f_equal (@rev N)) in E; rewrite rev_app_distr in E; injection E as <- _; reflexivity.
Qed.
Lemma ex_fragment x body : In x ["patch"; "minor"; "major"]%string ->
  has_front (ex_front ("bump: " ++ x) body) [js "bump: " ++ js x] (js "
" ++ js body) /\ fragment (ex_front ("bump: " ++ x) body) (Some (js x)).
Proof.
  intros I. assert (H : has_front (ex_front ("bump: " ++ x) body) [js "bump: " ++ js x] (js "
" ++ js body)).
  { exists [], []. split; [split; [constructor|auto]|]. split; [split; [constructor|auto]|]. split.
    - split.
      + constructor; [|constructor]. split; [|intros y; discriminate]. destruct I as [<-|[<-|[<-|[]]]]; cbn; intuition discriminate.
      + eexists _, _, []. split; [reflexivity|reflexivity].
    - destruct I as [<-|[<-|[<-|[]]]]; reflexivity. }
  split; auto. left. eexists _, _. split; [exact H|]. apply (declares_bump []). apply ex_word_says.
  destruct I as [<-|[<-|[<-|[]]]]; cbn; auto.
Qed.
Definition ex_entries : list (str * option str) :=
  [(js "2_b.md", Some (ex_front "bump: patch" "### Fixed
- y
")); (js "README.md", Some (js "about")); (js "1_a.md", Some (ex_front "bump: minor" "### Added
- x
")); (js "notes.txt", None); (js "3_c.md", Some (js "plain text
"))].
Lemma ex_readable : readable ex_entries.
Proof.
  intros n o I [[m E] NR]. destruct I as [X|[X|[X|[X|[X|[]]]]]]; injection X as <- <-.
  - eexists _, _. split; [reflexivity|]. apply (ex_fragment "patch"). cbn. auto.
  - contradiction.
  - eexists _, _. split; [reflexivity|]. apply (ex_fragment "minor"). cbn. auto.
  - exfalso. apply (f_equal (@rev N)) in E. rewrite rev_app_distr in E. discriminate.
  - eexists _, None. split; [reflexivity|]. right. split; auto. intros y E2. discriminate.
Qed.
Lemma L_C90_nonvacuous : readable ex_entries /\
  get_bump_type (js "patch") (Repo None None (Some ex_entries)) = (bump_outputs (js "minor") (js "3") true, Exit0) /\
  (exists c, In (js "1_a.md", Some c) ex_entries /\ fragment c (Some (js "minor")) /\ counts c 2).
Proof.
  split; [exact ex_readable|]. split; [vm_compute; reflexivity|].
  destruct (ex_fragment "minor" "### Added
- x
") as [_ F]; [cbn; auto|]. eexists. split; [right; right; left; reflexivity|]. split; [exact F|].
  eexists. split; [exact F|]. left. eexists. split; [reflexivity|]. constructor.
Qed.
(** With another default, a fragment without a kind does not count for it beside one with a kind. *)
Lemma L_C90_default_refuted : exists l, readable l /\ (exists n c, In (n, Some c) l /\ fragment_name n /\ fragment c None) /\
  get_bump_type (js "major") (Repo None None (Some l)) = (bump_outputs (js "patch") (js "2") true, Exit0).
Proof.
  exists [(js "a.md", Some (js "text")); (js "b.md", Some (ex_front "bump: patch" "x"))].
  assert (NA : fragment (js "text") None) by (right; split; auto; intros y E; discriminate). split; [|split].
  - intros n o I _. destruct I as [X|[X|[]]]; injection X as <- <-; eexists _, _; (split; [reflexivity|]); [exact NA|].
    apply (ex_fragment "patch"). cbn. auto.
  - eexists _, _. split; [left; reflexivity|]. split; [|exact NA]. split; [exists (js "a"); reflexivity|discriminate].
  - vm_compute. reflexivity.
Qed.
(** Values in quotes are not understood, front matter after an empty line is not found. *)
Lemma L_C90_spelling_refuted :
  (forall c, In c [ex_front "bump: ""major""" "x"; js "
" ++ ex_front "bump: major" "x"; ex_front "bump: major # breaking" "x"; ex_front "bump: Major" "x"] ->
  get_bump_type (js "patch") (Repo None None (Some [(js "a.md", Some c)])) = (bump_outputs (js "patch") (js "1") true, Exit0)) /\
  get_bump_type (js "patch") (Repo None None (Some [(js "a.md", Some (ex_front "bump: major" "x"))])) =
  (bump_outputs (js "major") (js "1") true, Exit0).
Proof.
  split; [|vm_compute; reflexivity]. intros c [<-|[<-|[<-|[<-|[]]]]]; vm_compute; reflexivity.
Qed.
