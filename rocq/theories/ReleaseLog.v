(** The changelog and the notes of a release: scripts/collect-changelog.mjs and
    scripts/create-github-release.mjs. *)
From Coq Require Import Ascii String NArith List Bool Lia Permutation Sorted.
From Verif Require Import JsText Release ReleaseVersion ReleaseNotes.
Import ListNotations.
Open Scope N_scope.

(** ** What the claims are about *)
(** the text of a fragment: its body, without the blanks around it *)
Definition worded (content x : str) : Prop :=
  (exists ls body, has_front content ls body /\ trimmed body x) \/ (no_front content /\ trimmed content x).
(** the order of names, character by character *)
Inductive precedes : str -> str -> Prop :=
| precedes_end c s : precedes [] (c :: s)
| precedes_here c d s t : c < d -> precedes (c :: s) (d :: t)
| precedes_later c s t : precedes s t -> precedes (c :: s) (c :: t).
(** the section of a version *)
Definition section (version date body : str) : str :=
  nl ++ js "## [" ++ version ++ js "] - " ++ date ++ nl ++ nl ++ body ++ nl.
(** paragraphs *)
Definition paragraphs (ts : list str) : str := join (nl ++ nl) (filter (fun x => negb (empty x)) ts).
(** no dollar sign before a dollar sign, an ampersand, a back quote or a quote *)
Definition quiet (t : str) : Prop := forall a c b, t = a ++ 36 :: c :: b -> ~ In c [36; 38; 96; 39].
(** The end of this text is the start of a line. *)
Definition lf_start (b : str) : Prop := b = [] \/ exists b', b = b' ++ [10].
Definition place_mark : str := js "<!-- changelog-insert-here -->".
(** No line begins as the heading of a version. *)
Definition headless (s : str) : Prop := forall b y, lf_start b -> s <> b ++ js "## [" ++ y.
(** [new] is the changelog [old] with the section [e] put in its place. *)
Inductive placed (e : str) : option str -> str -> Prop :=
| placed_mark b a : (forall b1 y, b ++ place_mark ++ a = b1 ++ place_mark ++ y -> (length b <= length b1)%nat) ->
    placed e (Some (b ++ place_mark ++ a)) (b ++ place_mark ++ e ++ a)
| placed_heading b a : (forall b1 y, b ++ js "## [" ++ a <> b1 ++ place_mark ++ y) -> lf_start b ->
    (forall b1 y, lf_start b1 -> b ++ js "## [" ++ a = b1 ++ js "## [" ++ y -> (length b <= length b1)%nat) ->
    placed e (Some (b ++ js "## [" ++ a)) (b ++ e ++ nl ++ js "## [" ++ a)
| placed_end old : (forall b1 y, old <> b1 ++ place_mark ++ y) -> headless old -> placed e (Some old) (old ++ e)
| placed_new h : (exists h', h = js "# Changelog" ++ h') -> (forall b y, h ++ place_mark ++ nl <> b ++ js "## [" ++ y) -> placed e None (h ++ place_mark ++ nl ++ e ++ nl).

(** ** Proofs *)
Lemma app_split (p : str) : forall q r s : str, p ++ q = r ++ s -> exists x, (r = p ++ x /\ q = x ++ s) \/ (p = r ++ x /\ s = x ++ q).
Proof.
  induction p as [|c p IH]; intros q r s E; cbn in E.
  - exists r. auto.
  - destruct r as [|d r]; cbn in E.
    + exists (c :: p). right. subst s. auto.
    + injection E as -> E. destruct (IH _ _ _ E) as (x & [[-> ->]|[-> ->]]); exists x; auto.
Qed.
(** a text without line feeds at the start of what ends, or goes on with a line feed *)
Lemma within (l z y p : str) : (z = [] \/ exists z', z = 10 :: z') -> ~ In 10 p -> l ++ z = p ++ y -> exists y', l = p ++ y'.
Proof.
  intros Z NI E. destruct (app_split _ _ _ _ E) as (x & [[E1 E2]|[E1 E2]]); [|eauto].
  destruct Z as [->|[z' ->]].
  - exists []. destruct x; [|discriminate]. rewrite app_nil_r in *. congruence.
  - destruct x as [|c x]; [exists []; rewrite app_nil_r in *; congruence|]. cbn in E2. injection E2 as <- _.
    exfalso. apply NI. rewrite E1. apply in_app_iff. right. now left.
Qed.
Lemma heading_nl : ~ In 10 (js "## [").
Proof. cbn. intuition discriminate. Qed.
Lemma lf_cases b : lf_start b -> forall x y z, b = x ++ 10 :: y -> z = y -> lf_start z.
Proof.
  intros [->|[b' ->]] x y z E ->; [destruct x; discriminate|]. unfold lf_start. destruct (rev y) as [|c y'] eqn:R.
  - left. apply (f_equal (@rev N)) in R. rewrite rev_involutive in R. exact R.
  - right. apply (f_equal (@rev N)) in R. rewrite rev_involutive in R. cbn in R. subst y. exists (rev y').
    rewrite app_comm_cons, app_assoc in E. apply app_inj_tail in E as [_ <-]. reflexivity.
Qed.
Lemma headless_app x y : headless x -> headless y -> headless (x ++ 10 :: y).
Proof.
  intros HX HY b z L E. destruct (app_split _ _ _ _ E) as (r & [[E1 E2]|[E1 E2]]).
  - destruct r as [|c r].
    + rewrite app_nil_r in E1. subst b. cbn [app] in E2. discriminate.
    + cbn in E2. injection E2 as <- E2. apply (HY r z); auto. eapply lf_cases; [exact L|exact E1|reflexivity].
  - symmetry in E2. apply within in E2 as [y' ->]; [|right; now eexists|exact heading_nl]. now apply (HX b y').
Qed.
Lemma headless_nil : headless [].
Proof. intros b y _ E. destruct b; discriminate. Qed.
Lemma headless_blank w : blank w -> headless w.
Proof.
  intros B b y _ E. unfold blank in B. rewrite Forall_forall in B. assert (I : In 35 w) by (rewrite E; apply in_app_iff; right; now left).
  apply B in I. discriminate.
Qed.
Lemma headless_line l : ~ In 10 l -> (forall y, l <> js "## [" ++ y) -> headless l.
Proof.
  intros NI NS b y [->|[b' ->]] E; [now apply (NS y)|]. apply NI. rewrite E, <- app_assoc. apply in_app_iff. right. now left.
Qed.
Lemma lf_app b x : lf_start x -> x <> [] -> lf_start (b ++ x).
Proof. intros [->|[x' ->]] NE; [contradiction|]. right. exists (b ++ x'). now rewrite app_assoc. Qed.

(** lines and headings *)
Definition ended (ls : list str) : str := List.concat (map (fun l => l ++ nl) ls).
Lemma join_lines s : join nl (lines s) = s.
Proof.
  induction s as [|c s IH]; auto. cbn [lines]. destruct (N.eqb_spec c 10) as [->|NE].
  - cbn [join]. destruct (lines s) as [|l ls] eqn:E.
    + destruct s as [|d s]; cbn in E; [discriminate|]. destruct (d =? 10); [discriminate|]. destruct (lines s); discriminate.
    + change ([] ++ nl ++ ?x) with (10 :: x). now rewrite IH.
  - destruct (lines s) as [|l ls]; [destruct s; [reflexivity|]|].
    + cbn in IH. discriminate.
    + cbn [join] in *. destruct ls; cbn [app]; now rewrite IH.
Qed.
Lemma lines_no_lf s : Forall (fun l => ~ In 10 l) (lines s) /\ lines s <> [].
Proof.
  induction s as [|c s [IH NE]]; cbn [lines]; [split; [repeat constructor; auto|discriminate]|]. destruct (N.eqb_spec c 10) as [->|NE2].
  - split; [constructor; auto|discriminate].
  - destruct (lines s) as [|l ls]; [contradiction|]. inversion IH; subst. split; [|discriminate]. constructor; auto. intros [E|I]; auto.
Qed.
Lemma join_app pre l post : join nl (pre ++ l :: post) = ended pre ++ join nl (l :: post).
Proof.
  induction pre as [|x pre IH]; auto. change (ended (x :: pre)) with ((x ++ nl) ++ ended pre). cbn [app join].
  destruct (pre ++ l :: post) eqn:E; [destruct pre; discriminate|]. rewrite IH, <- !app_assoc. reflexivity.
Qed.
Lemma heading_split e ls : match before_heading e ls with
  | Some r => exists pre l post y, ls = pre ++ l :: post /\ r = pre ++ e :: l :: post /\ l = js "## [" ++ y /\ Forall (fun l => forall y, l <> js "## [" ++ y) pre
  | None => Forall (fun l => forall y, l <> js "## [" ++ y) ls
  end.
Proof.
  induction ls as [|l ls IH]; cbn [before_heading]; [constructor|]. destruct (starts (js "## [") l) eqn:S.
  - apply starts_spec in S as [y ->]. exists [], (js "## [" ++ y), ls, y. repeat split; auto.
  - assert (NS : forall y, l <> js "## [" ++ y) by (intros y ->; rewrite starts_app in S; discriminate).
    destruct (before_heading e ls) as [r|].
    + destruct IH as (pre & l' & post & y & -> & -> & E & F). exists (l :: pre), l', post, y. repeat split; auto.
    + constructor; auto.
Qed.
Lemma ended_lf pre : lf_start (ended pre).
Proof.
  induction pre as [|l pre IH]; [now left|]. change (ended (l :: pre)) with ((l ++ nl) ++ ended pre). destruct IH as [->|[b ->]].
  - right. exists l. now rewrite app_nil_r.
  - right. exists ((l ++ nl) ++ b). now rewrite app_assoc.
Qed.
Lemma ended_first pre : Forall (fun l => ~ In 10 l) pre -> Forall (fun l => forall y, l <> js "## [" ++ y) pre ->
  forall s b y, lf_start b -> ended pre ++ s = b ++ js "## [" ++ y -> (length (ended pre) <= length b)%nat.
Proof.
  induction pre as [|l pre IH]; intros NL NH s b y L E; [cbn; lia|].
  inversion NL as [|? ? NI NL']; subst. inversion NH as [|? ? NS NH']; subst.
  change (ended (l :: pre)) with ((l ++ nl) ++ ended pre) in *. rewrite <- !app_assoc in E. rewrite !app_length.
  destruct L as [->|[b' ->]].
  - exfalso. cbn [app] in E. apply within in E as [y' ->]; [now apply (NS y')|right; now eexists|exact heading_nl].
  - rewrite <- app_assoc in E. change (nl ++ ?x) with (10 :: x) in E. change ([10] ++ ?x) with (10 :: x) in E.
    destruct (split_nl l NI b' _ _ E) as [[-> E2]|(u & -> & E2)].
    + apply (IH NL' NH' s []) in E2; [|now left]. cbn in *. rewrite app_length. cbn. lia.
    + change (u ++ 10 :: js "## [" ++ y) with (u ++ [10] ++ js "## [" ++ y) in E2. rewrite app_assoc in E2.
      apply (IH NL' NH' s (u ++ [10])) in E2; [|right; now eexists]. rewrite !app_length in *. cbn [length nl] in *. lia.
Qed.
Lemma headless_lines ls : Forall (fun l => ~ In 10 l) ls -> Forall (fun l => forall y, l <> js "## [" ++ y) ls -> headless (join nl ls).
Proof.
  induction ls as [|l ls IH]; intros NL NH; [exact headless_nil|]. inversion NL; subst. inversion NH; subst. cbn [join]. destruct ls as [|l' ls].
  - now apply headless_line.
  - change (nl ++ ?x) with (10 :: x). apply headless_app; auto. now apply headless_line.
Qed.
Lemma at_heading_parts e content :
  (exists b a, content = b ++ js "## [" ++ a /\ lf_start b /\
    (forall b1 y, lf_start b1 -> b ++ js "## [" ++ a = b1 ++ js "## [" ++ y -> (length b <= length b1)%nat) /\
    at_heading e content = b ++ e ++ nl ++ js "## [" ++ a) \/
  (headless content /\ at_heading e content = content ++ e).
Proof.
  unfold at_heading. pose proof (heading_split e (lines content)) as H. destruct (lines_no_lf content) as [NL NE].
  pose proof (join_lines content) as J. destruct (before_heading e (lines content)) as [r|].
  - left. destruct H as (pre & l & post & y & E & -> & EL & F). rewrite E in J, NL. rewrite join_app in J. rewrite join_app.
    apply Forall_app in NL as [NL _].
    assert (JH : exists a, join nl (l :: post) = js "## [" ++ a).
    { cbn [join]. destruct post as [|p post]; [now exists y|]. rewrite EL, <- app_assoc. now eexists. }
    destruct JH as [a JH]. rewrite JH in J. subst content. exists (ended pre), a.
    change (join nl (e :: l :: post)) with (e ++ nl ++ join nl (l :: post)).
    rewrite JH. split; auto. split; [apply ended_lf|]. split; auto. intros b1 y' L E2. eapply ended_first; eauto.
  - right. split; auto. rewrite <- J. now apply headless_lines.
Qed.
Lemma at_heading_ok e content : (forall b1 y, content <> b1 ++ place_mark ++ y) -> placed e (Some content) (at_heading e content).
Proof.
  intros NM. destruct (at_heading_parts e content) as [(b & a & -> & L & F & ->)|[H ->]]; now constructor.
Qed.

(** replacing the mark *)
Lemma subst_quiet m b a t : quiet t -> subst m b a [] t = t.
Proof.
  assert (W : forall n t, (length t <= n)%nat -> quiet t -> subst m b a [] t = t).
  { induction n as [|n IH]; intros [|c u] L Q; auto; [cbn in L; lia|]. cbn [length] in L.
    assert (Qu : forall x v, u = x ++ v -> quiet v).
    { intros x v -> a0 c0 b0 ->. apply (Q (c :: x ++ a0) c0 b0). cbn. now rewrite app_assoc. }
    cbn [subst]. destruct (N.eqb_spec c 36) as [->|NE]; [|rewrite IH; auto; [lia|exact (Qu [] u eq_refl)]].
    destruct u as [|d u]; auto. pose proof (Q [] d u eq_refl) as ND. cbn [length] in L.
    assert (Q1 : quiet u) by (now apply (Qu [d] u)).
    destruct (N.eqb_spec d 36) as [->|N1]; [exfalso; apply ND; cbn; auto|]. destruct (N.eqb_spec d 38) as [->|N2]; [exfalso; apply ND; cbn; auto|].
    destruct (N.eqb_spec d 96) as [->|N3]; [exfalso; apply ND; cbn; auto|]. destruct (N.eqb_spec d 39) as [->|N4]; [exfalso; apply ND; cbn; auto|].
    assert (E1 : subst m b a [] u = u) by (apply IH; [lia|exact Q1]).
    assert (E2 : subst m b a [] (d :: u) = d :: u) by (apply IH; [cbn [length]; lia|exact (Qu [] _ eq_refl)]).
    destruct (digit d); [|now rewrite E2].
    assert (ONE : (match num d with O => 36 :: d :: subst m b a [] u | S k => match nth_error (@nil str) k with Some x => x ++ subst m b a [] u | None => 36 :: d :: subst m b a [] u end end) = 36 :: d :: u).
    { rewrite E1. destruct (num d) as [|[|k]]; reflexivity. }
    destruct u as [|f u]; [exact ONE|]. destruct (digit f); [|exact ONE].
    destruct (10 * num d + num f)%nat as [|k].
    - rewrite IH; auto; [cbn [length] in L; lia|]. apply (Qu [d; f] u). reflexivity.
    - replace (nth_error (@nil str) k) with (@None str) by (destruct k; reflexivity). exact ONE. }
  apply (W (length t)). lia.
Qed.
Lemma mark_no_dollar : ~ In 36 place_mark.
Proof. vm_compute. intuition discriminate. Qed.
Lemma quiet_app x t : ~ In 36 x -> quiet t -> quiet (x ++ t).
Proof.
  intros NI Q a c b E. destruct (app_split _ _ _ _ E) as (r & [[E1 E2]|[E1 E2]]).
  - subst a. now apply (Q r c b).
  - destruct r as [|d r]; [cbn in E2; apply (Q [] c b); now rewrite <- E2|]. cbn in E2. injection E2 as <- _. exfalso. apply NI. rewrite E1. apply in_app_iff. right. now left.
Qed.
Lemma updated_ok e log : quiet e -> placed e log (updated_log e log).
Proof.
  intros Q. unfold updated_log. destruct log as [content|].
  - change marker with place_mark. destruct (cut place_mark content) as [[b a]|] eqn:C.
    + pose proof C as C'. apply cut_some in C as [-> F]. unfold replace_text. rewrite C', subst_quiet; [|apply quiet_app; auto using mark_no_dollar].
      rewrite <- app_assoc. constructor. intros b1 y E. destruct (app_split _ _ _ _ E) as (x & [[-> _]|[-> E2]]); [rewrite app_length; lia|].
      destruct x as [|c x]; [rewrite app_nil_r; lia|]. specialize (F b1 (c :: x) eq_refl ltac:(discriminate)). rewrite <- E2, strip_app in F. discriminate.
    + apply at_heading_ok. intros b1 y. now apply cut_none.
  - unfold fresh_log. change marker with place_mark. apply placed_new.
    + eexists. apply (proj1 (strip_spec (js "# Changelog") _ _)). vm_compute. reflexivity.
    + apply cut_none. vm_compute. reflexivity.
Qed.

(** the texts of the fragments *)
Lemma worded_ok content x : worded content x -> strip_front content = x.
Proof.
  intros [(ls & body & H & T)|[NF T]].
  - rewrite (strip_front_ok _ _ _ H). now apply trimmed_trim.
  - unfold strip_front. rewrite (no_front_ok _ NF). now apply trimmed_trim.
Qed.
Lemma texts_ok l ts : Forall2 (fun (e : str * option str) x => exists c, snd e = Some c /\ worded c x) l ts ->
  texts l = Some (filter (fun x => negb (empty x)) ts).
Proof.
  induction 1 as [|[n o] x l ts (c & E & W) F IH]; auto. cbn in E. subst o. cbn [texts filter]. rewrite IH, (worded_ok _ _ W).
  now destruct (empty x).
Qed.
Lemma leq_precedes a : forall b, leq a b = true -> a <> b -> precedes a b.
Proof.
  induction a as [|c a IH]; intros [|d b]; cbn [leq]; try discriminate; try contradiction; [constructor|].
  rewrite orb_true_iff, andb_true_iff, N.ltb_lt, N.eqb_eq. intros [L|[-> E]] NE; [now apply precedes_here|]. apply precedes_later, IH; auto. congruence.
Qed.
Lemma sorted_strict l : StronglySorted before l -> NoDup (map fst l) -> StronglySorted (fun e e' : str * option str => precedes (fst e) (fst e')) l.
Proof.
  induction 1 as [|e l S IH F]; intros ND; constructor; inversion ND as [|? ? NI ND']; subst; auto.
  rewrite Forall_forall in *. intros x I. apply leq_precedes; [now apply F|]. intros E. apply NI. rewrite E. now apply in_map.
Qed.
Lemma forall2_exists {A B} (R : A -> B -> Prop) l : (forall x, In x l -> exists y, R x y) -> exists l', Forall2 R l l'.
Proof.
  induction l as [|x l IH]; intros W; [exists []; constructor|]. destruct (W x (or_introl eq_refl)) as [y Y].
  destruct IH as [l' F]; [intros; apply W; now right|]. exists (y :: l'). now constructor.
Qed.

(** ** C91: collecting *)
Definition gathered (l fs rest : list (str * option str)) (ts : list str) : Prop :=
  parted l fs rest /\ StronglySorted (fun e e' : str * option str => precedes (fst e) (fst e')) fs /\
  Forall2 (fun (e : str * option str) x => exists c, snd e = Some c /\ worded c x) fs ts.
Lemma gather l : NoDup (map fst l) -> (forall n o, In (n, o) l -> fragment_name n -> exists c x, o = Some c /\ worded c x) ->
  exists ts, gathered l (sorted_fragments l) (without_fragments l) ts /\ texts (sorted_fragments l) = Some (filter (fun x => negb (empty x)) ts).
Proof.
  intros ND W. destruct (forall2_exists (fun (e : str * option str) x => exists c, snd e = Some c /\ worded c x) (sorted_fragments l)) as [ts F].
  { intros [n o] I. apply sorted_in in I as [I FN]. destruct (W n o I FN) as (c & x & -> & X). exists x, c. auto. }
  exists ts. split; [|now apply texts_ok]. split; [apply part|]. split; auto. apply sorted_strict; [apply sort_sorted|].
  apply (Permutation_NoDup (l := map fst (frags l))); [apply Permutation_map, fragments_perm|]. now apply nodup_map_filter.
Qed.
Lemma L_C91_collect date pre v post log l : version_at pre v post -> NoDup (map fst l) ->
  (forall n o, In (n, o) l -> fragment_name n -> exists c x, o = Some c /\ worded c x) ->
  let t := Repo (Some (pre ++ v ++ post)) log (Some l) in
  exists fs rest ts, gathered l fs rest ts /\
  (paragraphs ts = [] -> collect date t = (t, Exit0)) /\
  (paragraphs ts <> [] -> quiet (section v date (paragraphs ts)) ->
   exists log', placed (section v date (paragraphs ts)) log log' /\ collect date t = (Repo (Some (pre ++ v ++ post)) (Some log') (Some rest), Exit0)).
Proof.
  intros V ND W t. destruct (gather l ND W) as (ts & G & E). exists (sorted_fragments l), (without_fragments l), ts. split; auto.
  unfold t, collect. rewrite (cargo_version_ok _ _ _ _ _ V). unfold collect_fragments. cbn [entries]. rewrite E. fold (paragraphs ts). split.
  - intros ->. reflexivity.
  - intros NE Q. destruct (paragraphs ts) as [|c p] eqn:EP; [contradiction|]. cbn [empty]. rewrite <- EP in *.
    eexists. split; [|cbn [cargo chlog option_map]; reflexivity]. now apply updated_ok.
Qed.
Lemma L_C91_order date c log l l' : Permutation l l' -> NoDup (map fst l) ->
  (forall t' e, collect date (Repo c log (Some l)) = (t', e) -> exists es, collect date (Repo c log (Some l')) = (Repo (cargo t') (chlog t') es, e)).
Proof.
  intros P ND t' e. unfold collect, cargo_version. cbn [cargo]. destruct c as [f|]; [|intros E; injection E as <- <-; now eexists].
  destruct (exec r_any f) as [[[b ps] rest]|]; [|intros E; injection E as <- <-; now eexists].
  unfold collect_fragments. cbn [entries]. rewrite (fragments_order l l' P ND).
  destruct (texts (sorted_fragments l')) as [ts|]; [|intros E; injection E as <- <-; now eexists].
  destruct (empty _); intros E; injection E as <- <-; now eexists.
Qed.
(** what is not done: nothing is touched *)
Lemma L_C91_refuses date t : cargo t = None \/ (exists f, cargo t = Some f /\ forall b s, f = b ++ s -> line_start b -> ~ assigns s) \/ (exists l n, entries t = Some l /\ In (n, None) l /\ fragment_name n) -> collect date t = (t, Exit1).
Proof.
  intros [E|[(f & E & NA)|(l & n & E & I & F)]]; unfold collect, cargo_version.
  - now rewrite E.
  - rewrite E. destruct (exec r_any f) as [[[b ps] rest]|] eqn:X; auto. exfalso. unfold exec in X.
    apply find_sound in X as (s & -> & M & _). apply mt_sound, any_assigns in M as [A L]. apply (NA b s eq_refl); auto. now apply line_start_spec.
  - destruct (cargo t) as [f|]; auto. destruct (exec r_any f) as [[[b ps] rest]|]; auto. unfold collect_fragments. rewrite E.
    assert (X : In (n, None) (sorted_fragments l)) by (now apply sorted_in).
    assert (H : forall l, In (n, None) l -> texts l = None).
    { clear. induction l as [|[m [c|]] l IH]; intros I; auto; [destruct I|]. destruct I as [Y|I]; [discriminate|]. cbn [texts]. now rewrite IH. }
    now rewrite H.
Qed.
Lemma L_C91_no_directory date pre v post log : version_at pre v post ->
  collect date (Repo (Some (pre ++ v ++ post)) log None) = (Repo (Some (pre ++ v ++ post)) log None, Exit0).
Proof. intros V. unfold collect. now rewrite (cargo_version_ok _ _ _ _ _ V). Qed.

(** ** The notes *)
Definition no_mention (v s : str) : Prop := forall b y, s <> b ++ js "## [" ++ v ++ js "]" ++ y.
(** what follows a section: blanks up to the end or up to the next heading *)
Definition then_heading (a : str) : Prop := blank a \/ exists w y, a = w ++ nl ++ js "## [" ++ y /\ blank w.
(** one line *)
Definition one_line (s : str) : Prop := Forall (fun c => line_end c = false) s.
Definition tidy (s : str) : Prop := (forall c y, s = c :: y -> space c = false) /\ (forall c y, s = y ++ [c] -> space c = false).

Lemma ahead_none tl t2 : (tl = [] \/ exists y, tl = nl ++ js "## [" ++ y) -> forall g t1, headless g -> g = t1 ++ t2 -> t2 <> [] ->
  starts (nl ++ js "## [") (t2 ++ tl) = false /\ empty (t2 ++ tl) = false.
Proof.
  intros T g t1 H E NE. destruct t2 as [|c t2]; [contradiction|]. split; auto.
  destruct (starts _ _) eqn:S; auto. exfalso. apply starts_spec in S as [r S]. cbn [app nl] in S. injection S as -> S.
  change (35 :: 35 :: 32 :: 91 :: r) with (js "## [" ++ r) in S.
  apply within in S as [y ->]; [|destruct T as [->|[y ->]]; [now left|right; now eexists]|exact heading_nl].
  apply (H (t1 ++ [10]) y); [right; now eexists|]. rewrite <- app_assoc. exact E.
Qed.
Lemma one_line_nl s : one_line s -> ~ In 10 s.
Proof. unfold one_line. rewrite Forall_forall. intros W I. apply W in I. discriminate. Qed.
Lemma notes_ok v date body b a : ~ In 10 v -> one_line date -> headless body -> tidy body -> body <> [] -> then_heading a -> no_mention v (b ++ nl) ->
  notes v (Some (b ++ section v date body ++ a)) = body.
Proof.
  intros NV OD HB [TF TL] NE TH NM.
  assert (EX : exists w tl, a = w ++ tl /\ blank w /\ (tl = [] \/ exists y, tl = nl ++ js "## [" ++ y)).
  { destruct TH as [B|(w & y & -> & B)]; [exists a, []; rewrite app_nil_r; auto|]. exists w, (nl ++ js "## [" ++ y). eauto. }
  destruct EX as (w & tl & -> & BW & TT). clear TH.
  set (g := nl ++ body ++ nl ++ w).
  assert (HG : headless g).
  { unfold g. change (nl ++ body ++ nl ++ w) with ([] ++ 10 :: (body ++ 10 :: w)). apply headless_app; [exact headless_nil|].
    apply headless_app; auto. now apply headless_blank. }
  set (S := js "## [" ++ v ++ js "]" ++ (js " - " ++ date) ++ nl ++ g ++ tl).
  assert (ES : b ++ section v date body ++ w ++ tl = (b ++ nl) ++ S).
  { unfold section, S, g. change (js "] - ") with (js "]" ++ js " - "). repeat rewrite <- app_assoc. reflexivity. }
  assert (AN : forall x, forallb anything x = true) by (induction x; auto).
  assert (OD' : forallb dot (js " - " ++ date) = true).
  { apply forallb_forall. intros c I. apply in_app_iff in I as [I|I].
    - cbn in I. destruct I as [<-|[<-|[<-|[]]]]; reflexivity.
    - unfold one_line in OD. rewrite Forall_forall in OD. unfold dot. now rewrite OD. }
  assert (ND' : ~ In 10 (js " - " ++ date)).
  { intros I. rewrite forallb_forall in OD'. apply OD' in I. discriminate. }
  assert (M : forall q, mt (r_notes v) q S = Some ([js "## ["; v; js "]"; js " - " ++ date; nl; g; []], tl)).
  { intros q. unfold r_notes, S. apply mt_lit. apply mt_lit. apply mt_lit. apply mt_few; auto.
    - intros t1 t2 E NE2. cbn [mt]. destruct t2 as [|c t2]; [contradiction|]. cbn [app].
      destruct (strip nl (c :: t2 ++ nl ++ g ++ tl)) as [s'|] eqn:X; auto. apply strip_spec in X. cbn in X. injection X as -> _.
      exfalso. apply ND'. rewrite E. apply in_app_iff. right. now left.
    - apply mt_lit. apply mt_few; auto.
      + intros t1 t2 E NE2. cbn [mt]. destruct (ahead_none tl t2 TT g t1 HG E NE2) as [-> ->]. reflexivity.
      + cbn [mt]. assert (X : empty tl || starts (nl ++ js "## [") tl = true).
        { destruct TT as [->|[y ->]]; [reflexivity|]. change (nl ++ js "## [" ++ y) with ((nl ++ js "## [") ++ y). rewrite starts_app. apply orb_true_r. }
        now rewrite X. }
  assert (F : exec (r_notes v) ((b ++ nl) ++ S) = Some (b ++ nl, [js "## ["; v; js "]"; js " - " ++ date; nl; g; []], tl)).
  { unfold exec. apply find_first; [|apply M]. intros b1 b2 E NE2. apply mt_not. intros ps rest F.
    destruct ps as [|p0 ps]; [contradiction|]. destruct F as (s0 & E0 & -> & F).
    destruct ps as [|p1 ps]; [contradiction|]. destruct F as (s1 & -> & -> & F).
    destruct ps as [|p2 ps]; [contradiction|]. destruct F as (s2 & -> & -> & F). clear F.
    assert (E1 : b2 ++ S = (js "## [" ++ v ++ js "]") ++ s2) by (rewrite E0; now rewrite <- !app_assoc).
    assert (NH : ~ In 10 (js "## [" ++ v ++ js "]")) by (rewrite !in_app_iff; cbn; intuition discriminate).
    destruct (app_split _ _ _ _ E1) as (x & [[X _]|[X _]]).
    - assert (I : In 10 b2).
      { destruct (exists_last NE2) as (b3 & c & ->). rewrite app_assoc in E. apply app_inj_tail in E as [_ <-]. apply in_app_iff. right. now left. }
      apply NH. rewrite X. apply in_app_iff. now left.
    - apply (NM b1 x). rewrite E, X. now rewrite <- !app_assoc. }
  unfold notes. rewrite ES, F. unfold pieces. cbn [firstn skipn List.concat]. rewrite app_nil_r.
  apply trimmed_trim. exists nl, (nl ++ w). split; [reflexivity|]. split; [repeat constructor|]. split; [|auto].
  constructor; [reflexivity|exact BW].
Qed.
Lemma tidy_trimmed s x : trimmed s x -> tidy x.
Proof. intros (w1 & w2 & _ & _ & _ & F & L). split; auto. Qed.
Lemma tidy_join xs : Forall (fun x => tidy x /\ x <> []) xs -> tidy (join (nl ++ nl) xs).
Proof.
  induction 1 as [|x xs [[TF TL] NE] F IH]; [split; [discriminate|intros c [|] E; discriminate]|]. cbn [join]. destruct xs as [|y xs]; [split; auto|].
  destruct IH as [IF IL]. split.
  - intros c z E. destruct x as [|d x]; [contradiction|]. cbn in E. injection E as <- _. now apply (TF d x).
  - intros c z E. set (j := join (nl ++ nl) (y :: xs)) in *.
    assert (NJ : j <> []).
    { inversion F as [|? ? [_ NY] _]; subst. unfold j. cbn [join]. destruct xs; auto. intros X. apply app_eq_nil in X. tauto. }
    destruct (exists_last NJ) as (j' & d & EJ). rewrite EJ, !app_assoc in E. apply app_inj_tail in E as [_ <-]. now apply (IL d j').
Qed.
Lemma tidy_paragraphs l ts : Forall2 (fun (e : str * option str) x => exists c, snd e = Some c /\ worded c x) l ts -> tidy (paragraphs ts).
Proof.
  intros F. apply tidy_join. apply Forall_forall. intros x I. apply filter_In in I as [I NE]. split; [|now destruct x].
  induction F as [|e y l ts (c & _ & W) F IH]; [destruct I|]. destruct I as [<-|I]; auto.
  destruct W as [(ls & body & _ & T)|[_ T]]; eapply tidy_trimmed; eauto.
Qed.
Lemma no_mention_app v x y : no_mention v (x ++ y) -> no_mention v x.
Proof. intros N b z ->. apply (N b (z ++ y)). now rewrite <- !app_assoc. Qed.
Lemma no_mention_nl v x : ~ In 10 v -> no_mention v x -> no_mention v (x ++ nl).
Proof.
  intros NV NM b y E. assert (NH : ~ In 10 (js "## [" ++ v ++ js "]")) by (rewrite !in_app_iff; cbn; intuition discriminate).
  assert (E1 : x ++ nl = (b ++ js "## [" ++ v ++ js "]") ++ y) by (rewrite E; now rewrite <- !app_assoc).
  destruct (app_split _ _ _ _ E1) as (z & [[X Y]|[X _]]).
  - destruct z as [|c z].
    + rewrite app_nil_r in X. apply (NM b []). rewrite app_nil_r. exact (eq_sym X).
    + cbn in Y. injection Y as <- Y. destruct z; [|discriminate].
      apply (f_equal (@rev N)) in X. rewrite !rev_app_distr in X. cbn in X. discriminate.
  - apply (NM b z). rewrite X. now rewrite <- !app_assoc.
Qed.

(** ** C92: the notes of a release are its fragments *)
Lemma L_C92_section v date body b a : ~ In 10 v -> one_line date -> headless body -> tidy body -> body <> [] -> then_heading a -> no_mention v (b ++ nl) ->
  notes v (Some (b ++ section v date body ++ a)) = body.
Proof. apply notes_ok. Qed.
Lemma L_C92_collected date pre v post log l : version_at pre v post -> NoDup (map fst l) ->
  (forall n o, In (n, o) l -> fragment_name n -> exists c x, o = Some c /\ worded c x) ->
  ~ In 10 v -> one_line date ->
  (forall old, log = Some old -> no_mention v old /\
    forall b a, old = b ++ place_mark ++ a -> (forall b1 y, old = b1 ++ place_mark ++ y -> (length b <= length b1)%nat) -> then_heading a) ->
  exists fs rest ts, gathered l fs rest ts /\
  (paragraphs ts <> [] -> headless (paragraphs ts) -> quiet (section v date (paragraphs ts)) ->
   exists t', collect date (Repo (Some (pre ++ v ++ post)) log (Some l)) = (t', Exit0) /\ notes v (chlog t') = paragraphs ts).
Proof.
  intros V ND W NV OD OL. destruct (L_C91_collect date pre v post log l V ND W) as (fs & rest & ts & G & _ & C).
  exists fs, rest, ts. split; auto. intros NE HL Q. destruct (C NE Q) as (log' & P & E). eexists. split; [exact E|]. cbn [chlog].
  assert (TD : tidy (paragraphs ts)) by (destruct G as (_ & _ & F); eapply tidy_paragraphs; eauto).
  clear E C. inversion P as [b a F E1 E2|b a NM L F E1 E2|old NM H E1 E2|h SH NS E1 E2]; subst.
  - destruct (OL _ eq_refl) as [NN TH]. rewrite (app_assoc b). apply notes_ok; auto; [apply (TH b a); auto|].
    apply no_mention_nl; auto. apply (no_mention_app v _ a). now rewrite <- app_assoc.
  - destruct (OL _ eq_refl) as [NN _]. apply notes_ok; auto; [right; exists [], a; split; [reflexivity|constructor]|].
    apply no_mention_nl; auto. eapply no_mention_app; eauto.
  - destruct (OL _ eq_refl) as [NN _]. rewrite <- (app_nil_r (section v date (paragraphs ts))). apply notes_ok; auto; [left; constructor|].
    now apply no_mention_nl.
  - replace (h ++ place_mark ++ nl ++ section v date (paragraphs ts) ++ nl) with ((h ++ place_mark ++ nl) ++ section v date (paragraphs ts) ++ nl) by (now rewrite <- !app_assoc).
    apply notes_ok; auto; [left; repeat constructor|]. apply no_mention_nl; auto. intros b y E. now apply (NS b (v ++ js "]" ++ y)).
Qed.
Lemma L_C92_none v log : (log = None \/ exists old, log = Some old /\ no_mention v old) -> notes v log = js "Release v" ++ v.
Proof.
  intros [->|(old & -> & NM)]; auto. unfold notes, exec. rewrite find_none; auto. intros b x ->. apply mt_not. intros ps rest F.
  destruct ps as [|p0 ps]; [contradiction|]. destruct F as (s0 & -> & -> & F).
  destruct ps as [|p1 ps]; [contradiction|]. destruct F as (s1 & -> & -> & F).
  destruct ps as [|p2 ps]; [contradiction|]. destruct F as (s2 & -> & -> & F). now apply (NM b s2).
Qed.

(** a project whose changelog is that of the repository, and two fragments *)
Definition ex_log : str := js "# Changelog

All notable changes to this project will be documented in this file.

<!-- changelog-insert-here -->

## [0.1.0-pre+beta.15] - Initial Release

### Added
- Initial implementation of doublets library
".
Definition ex_frags : list (str * option str) :=
  [(js "2_b.md", Some (ex_front "bump: patch" "### Fixed
- y
")); (js "README.md", Some (js "about")); (js "1_a.md", Some (ex_front "bump: minor" "### Added
- costs $5
"))].
Definition ex_repo : repo := Repo (Some (ex_manifest "0.1.9" "1.0.1")) (Some ex_log) (Some ex_frags).
Lemma ex_worded x body w : In x ["patch"; "minor"; "major"]%string -> trimmed (js "
" ++ js body) w -> worded (ex_front ("bump: " ++ x) body) w.
Proof. intros I T. left. eexists _, _. split; [apply (ex_fragment x body I)|exact T]. Qed.
Lemma trimmed_of s x : trim s = x -> trimmed s x.
Proof. intros <-. apply trim_ok. Qed.
Definition ex_ts : list str := [js "### Added
- costs $5"; js "### Fixed
- y"].
Lemma ex_gathered : NoDup (map fst ex_frags) /\
  (forall n o, In (n, o) ex_frags -> fragment_name n -> exists c x, o = Some c /\ worded c x) /\
  gathered ex_frags [(js "1_a.md", Some (ex_front "bump: minor" "### Added
- costs $5
")); (js "2_b.md", Some (ex_front "bump: patch" "### Fixed
- y
"))] [(js "README.md", Some (js "about"))] ex_ts.
Proof.
  assert (WA : worded (ex_front "bump: minor" "### Added
- costs $5
") (js "### Added
- costs $5")) by (apply (ex_worded "minor"); [cbn; auto|apply trimmed_of; vm_compute; reflexivity]).
  assert (WB : worded (ex_front "bump: patch" "### Fixed
- y
") (js "### Fixed
- y")) by (apply (ex_worded "patch"); [cbn; auto|apply trimmed_of; vm_compute; reflexivity]).
  split; [|split].
  - repeat constructor; cbn; intuition discriminate.
  - intros n o [X|[X|[X|[]]]] [_ NR]; injection X as <- <-; [eexists _, _; split; [reflexivity|exact WB]|contradiction|eexists _, _; split; [reflexivity|exact WA]].
  - split; [|split].
    + split; [|split].
      * unfold ex_frags. set (a := (js "2_b.md", _)). set (r := (js "README.md", _)). set (c := (js "1_a.md", _)). cbn [app].
        apply (Permutation_trans (l' := [a; c; r])); [constructor; constructor|]. constructor.
      * repeat constructor; try discriminate; [now exists (js "1_a")|now exists (js "2_b")].
      * repeat constructor. intros [_ NE]. now apply NE.
    + repeat constructor.
    + repeat constructor; eexists; (split; [reflexivity|assumption]).
Qed.
Fixpoint quietb (t : str) : bool :=
  match t with
  | c :: u => (match u with d :: _ => negb ((c =? 36) && ((d =? 36) || (d =? 38) || (d =? 96) || (d =? 39))) | [] => true end) && quietb u
  | [] => true
  end.
Lemma quiet_of t : quietb t = true -> quiet t.
Proof.
  intros W a c b ->. induction a as [|d a IH]; cbn [app quietb] in W; apply andb_true_iff in W as [W W'].
  - intros [<-|[<-|[<-|[<-|[]]]]]; discriminate.
  - auto.
Qed.
Lemma first_mark old b0 a0 : cut place_mark old = Some (b0, a0) -> forall b a, old = b ++ place_mark ++ a ->
  (forall b1 y, old = b1 ++ place_mark ++ y -> (length b <= length b1)%nat) -> b = b0 /\ a = a0.
Proof.
  intros C b a E F. apply cut_some in C as [E0 F0]. specialize (F b0 a0 E0). rewrite E in E0.
  destruct (app_split _ _ _ _ E0) as (x & [[-> X]|[-> X]]).
  - destruct x as [|c x]; [rewrite app_nil_r; cbn [app] in X; apply app_inv_head in X; auto|].
    specialize (F0 b (c :: x) eq_refl ltac:(discriminate)). rewrite <- X, strip_app in F0. discriminate.
  - rewrite app_length in F. destruct x; [|cbn in F; lia]. rewrite app_nil_r. cbn [app] in X. apply app_inv_head in X. auto.
Qed.
Lemma headless_of s : forallb (fun l => negb (starts (js "## [") l)) (lines s) = true -> headless s.
Proof.
  intros W. rewrite <- (join_lines s). apply headless_lines; [apply lines_no_lf|]. apply Forall_forall. intros l I y ->.
  rewrite forallb_forall in W. apply W in I. rewrite starts_app in I. discriminate.
Qed.
Lemma ex_date : one_line (js "2026-11-17").
Proof. repeat constructor. Qed.
Lemma ex_old : no_mention (js "0.1.9") ex_log /\
  forall b a, ex_log = b ++ place_mark ++ a -> (forall b1 y, ex_log = b1 ++ place_mark ++ y -> (length b <= length b1)%nat) -> then_heading a.
Proof.
  split.
  - intros b y. change (js "## [" ++ js "0.1.9" ++ js "]" ++ y) with (js "## [0.1.9]" ++ y). apply cut_none. vm_compute. reflexivity.
  - intros b a E F. assert (X : exists b0 y, cut place_mark ex_log = Some (b0, js "
" ++ nl ++ js "## [" ++ y)) by (eexists _, _; vm_compute; reflexivity).
    destruct X as (b0 & y & X). destruct (first_mark _ _ _ X b a E F) as [_ ->]. right. exists (js "
"), y. split; [reflexivity|repeat constructor].
Qed.
Lemma L_C91_nonvacuous : exists pre post fs rest, version_at pre (js "0.1.9") post /\ ex_repo = Repo (Some (pre ++ js "0.1.9" ++ post)) (Some ex_log) (Some ex_frags) /\
  NoDup (map fst ex_frags) /\ gathered ex_frags fs rest ex_ts /\ length fs = 2%nat /\ paragraphs ex_ts <> [] /\
  quiet (section (js "0.1.9") (js "2026-11-17") (paragraphs ex_ts)) /\
  collect (js "2026-11-17") ex_repo = (Repo (Some (ex_manifest "0.1.9" "1.0.1")) (Some (js "# Changelog

All notable changes to this project will be documented in this file.

<!-- changelog-insert-here -->
## [0.1.9] - 2026-11-17

### Added
- costs $5

### Fixed
- y


## [0.1.0-pre+beta.15] - Initial Release

### Added
- Initial implementation of doublets library
")) (Some rest), Exit0).
Proof.
  destruct ex_gathered as (ND & W & G). destruct ex_version as (V & _). eexists _, _, _, _. split; [exact V|]. split; [vm_compute; reflexivity|].
  split; [exact ND|]. split; [exact G|]. split; [reflexivity|]. split; [discriminate|]. split; [apply quiet_of; vm_compute; reflexivity|].
  vm_compute. reflexivity.
Qed.
Lemma L_C92_nonvacuous : (exists pre post, version_at pre (js "0.1.9") post /\ ex_manifest "0.1.9" "1.0.1" = pre ++ js "0.1.9" ++ post) /\
  NoDup (map fst ex_frags) /\ (forall n o, In (n, o) ex_frags -> fragment_name n -> exists c x, o = Some c /\ worded c x) /\
  one_line (js "2026-11-17") /\ no_mention (js "0.1.9") ex_log /\
  (forall b a, ex_log = b ++ place_mark ++ a -> (forall b1 y, ex_log = b1 ++ place_mark ++ y -> (length b <= length b1)%nat) -> then_heading a) /\
  headless (paragraphs ex_ts) /\ paragraphs ex_ts <> [] /\
  notes (js "0.1.9") (chlog (fst (collect (js "2026-11-17") ex_repo))) = paragraphs ex_ts.
Proof.
  destruct ex_gathered as (ND & W & G). destruct ex_version as (V & _). destruct ex_old as [NM TH].
  split; [eexists _, _; split; [exact V|vm_compute; reflexivity]|]. split; [exact ND|]. split; [exact W|]. split; [exact ex_date|].
  split; [exact NM|]. split; [exact TH|]. split; [apply headless_of; vm_compute; reflexivity|]. split; [discriminate|]. vm_compute. reflexivity.
Qed.
(** Dollar signs in a fragment are taken for patterns of replace where the mark is found. *)
Lemma L_C91_dollar_refuted : exists old new x, worded x x /\
  collect (js "2026-11-17") (Repo (Some (ex_manifest "0.1.9" "1.0.1")) (Some old) (Some [(js "a.md", Some x)])) =
  (Repo (Some (ex_manifest "0.1.9" "1.0.1")) (Some new) (Some []), Exit0) /\
  old = js "<!-- changelog-insert-here -->" /\ x = js "- `$&` and $$" /\ new = js "<!-- changelog-insert-here -->
## [0.1.9] - 2026-11-17

- `<!-- changelog-insert-here -->` and $
" /\ ~ placed (section (js "0.1.9") (js "2026-11-17") x) (Some old) new.
Proof.
  exists place_mark. eexists. exists (js "- `$&` and $$"). split; [|split; [vm_compute; reflexivity|split; [reflexivity|split; [reflexivity|split; [reflexivity|]]]]].
  - right. split; [intros y; discriminate|]. apply trimmed_of. vm_compute. reflexivity.
  - assert (D : forall o n, o = place_mark -> placed (section (js "0.1.9") (js "2026-11-17") (js "- `$&` and $$")) (Some o) n -> length n = 70%nat).
    { intros o n EO P. inversion P as [b a F E1 E2|b a NM L F E1 E2|o' NM H E1 E2|]; subst n.
      - subst o. apply (f_equal (@length N)) in E1. rewrite !app_length in *.
        change (length place_mark) with 30%nat in *. change (length (section _ _ _)) with 40%nat. cbn [length] in E1. lia.
      - subst o. exfalso. apply (NM [] []). transitivity place_mark; [exact E1|reflexivity].
      - subst. exfalso. apply (NM [] []). reflexivity. }
    intros P. apply D in P; [|reflexivity]. vm_compute in P. discriminate.
Qed.
(** A line in a fragment that begins as a heading ends the notes. *)
Lemma L_C92_heading_refuted : exists x, worded x x /\ ~ headless x /\
  notes (js "0.1.9") (chlog (fst (collect (js "2026-11-17") (Repo (Some (ex_manifest "0.1.9" "1.0.1")) (Some ex_log) (Some [(js "a.md", Some x)]))))) = js "- one" /\
  x = js "- one
## [links] are renamed".
Proof.
  eexists. split; [|split; [|split; [|reflexivity]]].
  - right. split; [intros y; discriminate|]. apply trimmed_of. vm_compute. reflexivity.
  - intros H. apply (H (js "- one
") (js "links] are renamed")); [right; now exists (js "- one")|reflexivity].
  - vm_compute. reflexivity.
Qed.
