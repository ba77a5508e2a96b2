(** Proofs of the claims about the release jobs of the workflow (Workflow.v). *)
From Coq Require Import Ascii String Arith NArith List Bool Lia Permutation Sorted.
From Verif Require Import JsText Release ReleaseVersion ReleaseNotes ReleaseLog ReleaseRun Workflow.
Import ListNotations.
Open Scope N_scope.

(** ** Specification *)
(** The text [f] gives the version [x]: in the first line that starts with version = and a
    quoted text that is not empty, written just so. *)
Definition crate_says (f x : str) : Prop :=
  exists b y, f = b ++ js "version = """ ++ x ++ y /\ lf_start b /\ x <> [] /\ ~ In 34 x /\ ~ In 10 x /\
  (forall c y', y = c :: y' -> c = 34 \/ c = 10) /\
  (forall b' c y', lf_start b' -> b = b' ++ js "version = """ ++ c :: y' -> c = 34 \/ c = 10).
Definition some_fragment (t : repo) : Prop := exists l n o, entries t = Some l /\ In (n, o) l /\ fragment_name n.
(** texts that can be pasted between double quotes *)
Definition harmless (s : str) : Prop := forall c, In c s -> ~ In c [34; 36; 92; 96].
(** The script came to its end without an error: the tag was there, there was nothing to commit,
    or all was done. *)
Definition script_done (tag : str) (run : list (command * answer)) : Prop :=
  In (Rev_parse tag, Returns) run \/ In (Diff, Returns) run \/ exists cm tm, run = plan tag cm tm.

(** ** Proofs *)
Lemma quotable_spec s : quotable s = true <-> harmless s.
Proof.
  unfold quotable, harmless. rewrite forallb_forall. split.
  - intros W c I J. apply W in I. cbn [In] in J. destruct J as [<-|[<-|[<-|[<-|[]]]]]; discriminate I.
  - intros W c I. specialize (W c I). destruct (N.eqb_spec c 34) as [->|]; [destruct W; cbn; auto|].
    destruct (N.eqb_spec c 36) as [->|]; [destruct W; cbn; auto|]. destruct (N.eqb_spec c 96) as [->|]; [destruct W; cbn; auto|].
    destruct (N.eqb_spec c 92) as [->|]; [destruct W; cbn; auto 10|]. reflexivity.
Qed.
Lemma unquoted_ok x y : ~ In 34 x -> (forall c y', y = c :: y' -> c = 34) -> unquoted (x ++ y) = x.
Proof.
  induction x as [|c x IH]; cbn [app unquoted]; intros NI Y.
  - destruct y as [|c y]; auto. cbn [unquoted]. now rewrite (Y c y eq_refl).
  - destruct (N.eqb_spec c 34) as [->|NE]; [destruct NI; now left|]. rewrite IH; auto. intros I. apply NI. now right.
Qed.
Lemma unquoted_parts s : exists y, s = unquoted s ++ y /\ ~ In 34 (unquoted s) /\ (forall c y', y = c :: y' -> c = 34).
Proof.
  induction s as [|c s (y & E & NI & Y)]; cbn [unquoted]; [exists []; repeat split; [intros []|discriminate]|].
  destruct (N.eqb_spec c 34) as [->|NE].
  - exists (34 :: s). split; auto. split; [intros []|]. intros d z [= <- _]. reflexivity.
  - exists y. cbn [app]. split; [now f_equal|]. split; auto. intros [Q|Q]; auto.
Qed.
Lemma ended_cons l ls : ended (l :: ls) = l ++ nl ++ ended ls.
Proof. change (ended (l :: ls)) with ((l ++ nl) ++ ended ls). now rewrite <- app_assoc. Qed.
Lemma ended_lf ls : lf_start (ended ls).
Proof.
  induction ls as [|l ls IH]; [now left|]. right. rewrite ended_cons. destruct IH as [->|[b ->]].
  - exists l. now rewrite app_nil_r.
  - exists (l ++ nl ++ b). now rewrite <- !app_assoc.
Qed.
Lemma lines_ended ls s : Forall (fun l => ~ In 10 l) ls -> lines (ended ls ++ s) = ls ++ lines s.
Proof.
  induction ls as [|l ls IH]; intros F; auto. inversion F; subst. rewrite ended_cons, <- !app_assoc, lines_app by auto. now rewrite IH.
Qed.
Lemma lf_ended b : lf_start b -> exists ls, b = ended ls /\ Forall (fun l => ~ In 10 l) ls.
Proof.
  intros [->|[b' ->]]; [exists []; auto|]. exists (lines b'). destruct (lines_no_lf b') as [F NE]. split; auto.
  rewrite <- (join_lines b') at 1. clear F. induction (lines b') as [|l ls IH]; [contradiction|]. rewrite ended_cons. cbn [join]. destruct ls as [|l2 ls].
  - reflexivity.
  - rewrite <- IH by discriminate. now rewrite <- !app_assoc.
Qed.

Lemma opening_no_lf : ~ In 10 opening.
Proof. vm_compute. intuition discriminate. Qed.
Lemma grep_skip ls1 ls2 : (forall l r, In l ls1 -> l = opening ++ r -> unquoted r = []) -> grep_version (ls1 ++ ls2) = grep_version ls2.
Proof.
  induction ls1 as [|l ls1 IH]; intros W; auto. cbn [app grep_version]. rewrite IH by (intros; apply (W l0); auto; now right).
  destruct (strip opening l) as [r|] eqn:E; auto. apply strip_spec in E. rewrite (W l r (or_introl eq_refl) E). reflexivity.
Qed.
Lemma says_found f x : crate_says f x -> shell_version (Some f) = x.
Proof.
  intros (b & y & -> & LB & X0 & XQ & XL & Y & F). cbn [shell_version]. destruct (lf_ended b LB) as (ls & -> & NL).
  rewrite lines_ended by auto. rewrite grep_skip.
  - fold opening in *. assert (HD : exists r ls2, lines (opening ++ x ++ y) = (opening ++ x ++ r) :: ls2 /\ (forall c r', r = c :: r' -> c = 34)).
    { assert (NO : ~ In 10 (opening ++ x)) by (intros I; apply in_app_iff in I as [I|I]; [now apply opening_no_lf|contradiction]).
      destruct (lines_no_lf y) as [FY NE]. pose proof (join_lines y) as J. destruct (lines y) as [|l ly] eqn:EL; [contradiction|].
      inversion FY; subst. assert (NA : ~ In 10 (opening ++ x ++ l)) by (rewrite app_assoc; intros I; apply in_app_iff in I as [I|I]; contradiction).
      cbn [join]. destruct ly as [|l2 ly].
      - exists l, []. split; [now apply lines_one|]. intros c r' ->. destruct (Y c r' eq_refl) as [->| ->]; auto. exfalso. apply H1. now left.
      - exists l, (lines (join nl (l2 :: ly))). split.
        + replace (opening ++ x ++ l ++ nl ++ join nl (l2 :: ly)) with ((opening ++ x ++ l) ++ nl ++ join nl (l2 :: ly)) by now rewrite <- !app_assoc.
          now apply lines_app.
        + intros c r' ->. destruct (Y c (r' ++ nl ++ join nl (l2 :: ly)) eq_refl) as [->| ->]; auto. exfalso. apply H1. now left. }
    destruct HD as (r & ls2 & -> & R). cbn [grep_version]. rewrite strip_app, unquoted_ok by auto. destruct x; [contradiction|]. reflexivity.
  - intros l r I E. destruct (in_split _ _ I) as (l1 & l2 & ->). rewrite Forall_app in NL. destruct NL as [N1 N2]. inversion N2; subst.
    destruct r as [|c r]; auto. cbn [unquoted]. destruct (N.eqb_spec c 34) as [->|NE]; auto. exfalso.
    destruct (F (ended l1) c (r ++ nl ++ ended l2)) as [->| ->]; auto.
    + apply ended_lf.
    + unfold ended. rewrite map_app, concat_app. fold (ended l1) (ended ((opening ++ c :: r) :: l2)). rewrite ended_cons, <- app_assoc. reflexivity.
    + apply H1. apply in_app_iff. right. now left.
Qed.
Lemma grep_parts ls : Forall (fun l => ~ In 10 l) ls -> grep_version ls <> [] ->
  exists ls1 r ls2, ls = ls1 ++ (opening ++ r) :: ls2 /\ grep_version ls = unquoted r /\ (forall l r, In l ls1 -> l = opening ++ r -> unquoted r = []).
Proof.
  induction ls as [|l ls IH]; intros F NE; [contradiction|]. inversion F; subst. cbn [grep_version] in *.
  destruct (strip opening l) as [r|] eqn:E; [apply strip_spec in E; destruct (unquoted r) as [|c u] eqn:EU; cbn [empty] in *|].
  - destruct IH as (ls1 & r' & ls2 & -> & E2 & W); auto. exists (l :: ls1), r', ls2. split; auto. split; auto. intros l0 r0 [<-|I] E3; eauto.
    rewrite E in E3. apply app_inv_head in E3. now subst.
  - exists [], r, ls. subst l. split; [reflexivity|]. split; [now rewrite EU|]. intros ? ? [].
  - destruct IH as (ls1 & r' & ls2 & -> & E2 & W); auto. exists (l :: ls1), r', ls2. split; auto. split; auto. intros l0 r0 [<-|I] E3; eauto.
    subst l. rewrite strip_app in E. discriminate.
Qed.
Lemma lines_front p s : ~ In 10 p -> exists l ls, lines s = l :: ls /\ lines (p ++ s) = (p ++ l) :: ls.
Proof.
  induction p as [|c p IH]; intros NI.
  - destruct (lines_no_lf s) as [_ NE]. cbn [app]. destruct (lines s) as [|l ls]; [contradiction|]. exists l, ls. auto.
  - destruct IH as (l & ls & E1 & E2); [intros I; apply NI; now right|]. exists l, ls. split; auto. cbn [app lines]. rewrite E2.
    destruct (N.eqb_spec c 10) as [->|]; [destruct NI; now left|reflexivity].
Qed.
Lemma found_says f : shell_version (Some f) <> [] -> crate_says f (shell_version (Some f)).
Proof.
  cbn [shell_version]. intros NE. destruct (lines_no_lf f) as [F _]. destruct (grep_parts _ F NE) as (ls1 & r & ls2 & E & EG & W). rewrite EG in *.
  rewrite E in F. rewrite Forall_app in F. destruct F as [F1 F2]. apply Forall_cons_iff in F2 as [H1 H2].
  destruct (unquoted_parts r) as (y & ER & NQ & Y). pose proof (join_lines f) as J. rewrite E, join_app in J.
  exists (ended ls1), (y ++ match ls2 with [] => [] | _ => nl ++ join nl ls2 end). split; [|split; [apply ended_lf|split; [exact NE|split; [exact NQ|split; [|split]]]]].
  - rewrite <- J. f_equal. cbn [join]. fold opening. destruct ls2; rewrite ER at 1; rewrite <- ?app_assoc, ?app_nil_r; reflexivity.
  - intros I. apply H1. apply in_app_iff. right. rewrite ER. apply in_app_iff. now left.
  - intros c y' EY. destruct y as [|d y]; [|injection EY as <- _; left; eauto]. destruct ls2; [discriminate|]. cbn in EY. injection EY as <- _. auto.
  - intros b' c y' LB EB. destruct (N.eqb_spec c 10) as [->|NC]; auto. left. destruct (lf_ended b' LB) as (ls & -> & NL). fold opening in EB.
    apply (f_equal lines) in EB. rewrite <- (app_nil_r (ended ls1)), !lines_ended in EB by auto.
    assert (EO : opening ++ c :: y' = (opening ++ [c]) ++ y') by now rewrite <- app_assoc. rewrite EO in EB.
    destruct (lines_front (opening ++ [c]) y') as (l & ly & _ & EL).
    { intros I. apply in_app_iff in I as [I|[I|[]]]; [now apply opening_no_lf|auto]. }
    rewrite EL in EB. assert (I : In ((opening ++ [c]) ++ l) (ls1 ++ lines [])) by (rewrite EB; apply in_app_iff; right; now left).
    apply in_app_iff in I as [I|[I|[]]]; [|discriminate I]. apply W with (r := c :: l) in I; [|now rewrite <- app_assoc].
    cbn [unquoted] in I. destruct (N.eqb_spec c 34); [auto|discriminate].
Qed.

(** what the steps give *)
Lemma output_told key y v : key <> js "new_version" -> output (js "new_version") (told key y v) = y /\ output key (told key y v) = js v.
Proof.
  intros NE. unfold output, told. cbn [fold_left fst snd]. rewrite same_refl. split; [reflexivity|].
  rewrite same_refl. rewrite (same_neq (js "new_version") key); auto.
Qed.
Lemma any_spec t : any_fragment t = true <-> some_fragment t.
Proof.
  unfold any_fragment, some_fragment. destruct (entries t) as [l|]; [|split; [discriminate|intros (l & _ & _ & E & _); discriminate]].
  rewrite existsb_exists. split.
  - intros ([n o] & I & F). apply is_fragment_spec in F. eauto 6.
  - intros (l' & n & o & [= <-] & I & F). exists (n, o). split; auto. now apply is_fragment_spec.
Qed.
Lemma bump_some t o : get_bump_type (js "patch") t = (o, Exit0) ->
  (same (output (js "has_fragments") o) (js "true") = true <-> some_fragment t).
Proof.
  unfold get_bump_type, determine, some_fragment. intros E. destruct (entries t) as [l|].
  - destruct (sorted_fragments l) as [|e fs] eqn:S.
    + injection E as <-. split; [discriminate|]. intros (l' & n & o & [= <-] & I & F). assert (X : In (n, o) (sorted_fragments l)) by (apply sorted_in; auto).
      rewrite S in X. destruct X.
    + destruct (highest (e :: fs) 0 (js "patch")); try discriminate. injection E as <-. split; [|reflexivity]. intros _. destruct e as [n o].
      exists l, n, o. split; auto. apply sorted_in. rewrite S. now left.
  - injection E as <-. split; [discriminate|]. intros (l' & n & o & E & _). discriminate.
Qed.
Lemma bump_none t : ~ some_fragment t -> exists o, get_bump_type (js "patch") t = (o, Exit0).
Proof.
  intros N. unfold get_bump_type, determine. destruct (entries t) as [l|] eqn:EL; [|eauto].
  destruct (sorted_fragments l) as [|[n o] fs] eqn:S; [eauto|]. destruct N. exists l, n, o. split; auto. apply sorted_in. rewrite S. now left.
Qed.
Lemma script_ends git arg desc date t : let d := version_and_commit git arg desc date t in d_end d = Exit0 -> exists y,
  (In (Rev_parse (js "v" ++ y), Returns) (rev (d_cmds d)) /\ d_repo d = t /\ d_out d = told (js "already_released") y "true" \/
   In (Diff, Returns) (rev (d_cmds d)) /\ d_out d = told (js "version_committed") y "false" \/
   (exists cm tm, rev (d_cmds d) = plan (js "v" ++ y) cm tm) /\ d_out d = told (js "version_committed") y "true").
Proof.
  cbv zeta. destruct (version_and_commit git arg desc date t) as [r o c e] eqn:H. unfold version_and_commit in H.
  destruct (kind_of arg) as [k|]; [|injection H as <- <- <- <-; discriminate].
  destruct (current_version t) as [cur| |].
  1: set (v := new_version cur k) in *; destruct (update_cargo v t) as [t1|] eqn:U; [destruct (collect_changelog v date t1) as [t2|] eqn:C|].
  all: cbv iota in H; repeat answer H.
  all: try (rewrite U in H; cbv iota in H; try (rewrite C in H; cbv iota in H); repeat answer H).
  all: injection H as <- <- <- <-; cbn [d_cmds d_repo d_out d_end rev app]; intros E; try discriminate E; exists v.
  all: cbn [In].
  all: try (left; split; [auto 10|split; reflexivity]).
  all: try (right; left; split; [auto 10|reflexivity]).
  right; right. split; [|reflexivity]. eexists _, _. reflexivity.
Qed.
Lemma release_made w s t' h v p : r_release (released w s t' h v) = Some p ->
  p = (js "v" ++ v, notes v (chlog t')) /\ v <> [] /\ harmless v /\ builds w t' = true /\ github w (js "v" ++ v) (notes v (chlog t')) = Made /\
  released w s t' h v = Result s (Some p) h Passed.
Proof.
  unfold released, create_release. destruct (builds w t'); [|discriminate]. destruct (quotable v) eqn:Q; [|discriminate]. cbn [negb].
  destruct v as [|c v]; [discriminate|]. cbn [empty]. destruct (github w _ _); cbn [r_release]; try discriminate. intros [= <-].
  split; auto. split; [discriminate|]. split; [now apply quotable_spec|]. auto.
Qed.
Lemma released_site w s t' h v : r_site (released w s t' h v) = s /\ r_cmds (released w s t' h v) = h.
Proof. unfold released. destruct (builds w t'); [destruct (create_release w v (chlog t'))|]; auto. Qed.
Lemma released_made w s t' h v : v <> [] -> harmless v -> builds w t' = true -> github w (js "v" ++ v) (notes v (chlog t')) = Made ->
  released w s t' h v = Result s (Some (js "v" ++ v, notes v (chlog t'))) h Passed.
Proof.
  intros NE Q B G. unfold released, create_release. apply quotable_spec in Q. rewrite B, Q, G. destruct v; [contradiction|]. reflexivity.
Qed.
Lemma after_entries t t' h : entries (after t t' h) = entries t.
Proof. unfold after. now destruct (existsb is_push h). Qed.
Lemma plan_pushes tag cm tm h : rev h = plan tag cm tm -> existsb is_push h = true.
Proof.
  intros E. apply existsb_exists. exists (Push, Returns). split; auto. apply in_rev. rewrite E. cbn [In plan]. auto 12.
Qed.

Lemma followed_cmds p run : followed p run -> forall e, In e run -> exists a, In (fst e, a) p.
Proof.
  intros (done & c & a & a' & rest & -> & -> & _) e I. apply in_app_iff in I as [I|[<-|[]]].
  - destruct e as [k b]. exists b. apply in_app_iff. now left.
  - exists a. apply in_app_iff. right. now left.
Qed.
Lemma followed_push tag cm tm run a : followed (plan tag cm tm) run -> In (Push, a) run -> In (Rev_parse tag, Throws) run.
Proof.
  intros (done & c & b & a' & rest & E & -> & _) I. unfold plan in E.
  destruct done as [|d1 [|d2 [|d3 done]]]; cbn [app] in *.
  - injection E as <- _ _. destruct I as [I|[]]. discriminate I.
  - injection E as <- <- _ _. destruct I as [I|[I|[]]]; discriminate I.
  - injection E as <- <- <- _ _. destruct I as [I|[I|[I|[]]]]; discriminate I.
  - injection E as <- <- <- _. cbn [In]. auto.
Qed.
Lemma rank_asks b r v : rank b r -> exists w, asks b v w.
Proof. intros R. destruct v as [[x y] z]. inversion R; subst; eexists; constructor. Qed.

(** ** C95: the job auto-release *)
(** A release it makes is of the version that doublets/Cargo.toml gives, if that is not tagged or
    there are fragments for which the script came to its end. *)
Lemma L_C95_release w s tag body : r_release (auto w s) = Some (tag, body) ->
  exists f x, crate s = Some f /\ crate_says f x /\ tag = js "v" ++ x /\ r_end (auto w s) = Passed /\ github w tag body = Made /\
  ((~ some_fragment (files s) /\ there w tag = false /\ builds w (files s) = true /\ body = notes x (chlog (files s)) /\ r_site (auto w s) = s /\ r_cmds (auto w s) = []) \/
   (some_fragment (files s) /\ exists b, let d := version_and_commit (git w) b [] (today w) (files s) in
    r_cmds (auto w s) = d_cmds d /\ (exists y, script_done (js "v" ++ y) (rev (d_cmds d))) /\ builds w (d_repo d) = true /\ body = notes x (chlog (d_repo d)))).
Proof.
  unfold auto. destruct (get_bump_type (js "patch") (files s)) as [o [| |]] eqn:E; try discriminate.
  assert (CS : forall p, p <> [] -> shell_version (crate s) = p -> exists f, crate s = Some f /\ crate_says f p).
  { intros p NE EP. destruct (crate s) as [f|]; [|now subst]. exists f. split; auto. rewrite <- EP. apply found_says. congruence. }
  pose proof (bump_some _ _ E) as B. destruct (same (output (js "has_fragments") o) (js "true")).
  - destruct (d_end _) eqn:DE; try discriminate. intros M.
    pose proof (script_ends _ _ _ _ _ DE) as (y & SD). cbv zeta in SD.
    apply release_made in M as ([= -> ->] & NE & Q & BU & G & ->). destruct (CS _ NE eq_refl) as (f & F1 & F2).
    exists f, (shell_version (crate s)). do 4 (split; auto). split; auto. right. split; [now apply B|]. eexists. cbv zeta. split; [reflexivity|]. split; [|auto].
    exists y. unfold script_done. destruct SD as [(SD & _)|[(SD & _)|(SD & _)]]; auto.
  - destruct (there w (js "v" ++ shell_version (crate s))) eqn:TH; [discriminate|]. intros M.
    apply release_made in M as ([= -> ->] & NE & Q & BU & G & ->). destruct (CS _ NE eq_refl) as (f & F1 & F2).
    exists f, (shell_version (crate s)). do 4 (split; auto). split; auto. left. split; [intros X; apply B in X; discriminate|]. auto.
Qed.
(** without fragments *)
Lemma L_C95_quiet w s f x : ~ some_fragment (files s) -> crate s = Some f -> crate_says f x ->
  (there w (js "v" ++ x) = true -> auto w s = Result s None [] Passed) /\
  (there w (js "v" ++ x) = false -> harmless x -> builds w (files s) = true -> github w (js "v" ++ x) (notes x (chlog (files s))) = Made ->
   auto w s = Result s (Some (js "v" ++ x, notes x (chlog (files s)))) [] Passed).
Proof.
  intros N C X. apply says_found in X as EX. destruct (bump_none _ N) as (o & E). unfold auto. rewrite E, C, EX.
  pose proof (bump_some _ _ E) as B. destruct (same (output (js "has_fragments") o) (js "true")); [destruct N; now apply B|].
  split; intros ->; auto. intros Q BU G. apply released_made; auto. destruct X as (? & ? & _ & _ & NE & _). exact NE.
Qed.
(** with fragments: what is on the branch afterwards, and that the release is not of the version that was tagged, unless
    that is the version doublets/Cargo.toml has *)
Lemma L_C95_commit w pre x post v log l f c y0 : version_at pre x post -> plain x v -> exact v -> NoDup (map fst l) ->
  (forall n o, In (n, o) l -> fragment_name n -> (exists c z, o = Some c /\ worded c z) /\ exists c d, o = Some c /\ fragment c d) ->
  some_fragment (Repo (Some (pre ++ x ++ post)) log (Some l)) -> crate_says f c ->
  let s := Site (Repo (Some (pre ++ x ++ post)) log (Some l)) (Some f) in
  let r := auto w s in
  In (Tag (js "v" ++ y0) (js "Release v" ++ y0), Returns) (r_cmds r) -> In (Push, Returns) (r_cmds r) ->
  exists v' ts log' b k, rank b k /\ (forall n z k', In (n, Some z) l -> fragment_name n -> counts z k' -> k' <= k) /\
  (exists n z, In (n, Some z) l /\ fragment_name n /\ counts z k) /\ asks b v v' /\
  plain y0 v' /\ later v v' /\ version_at pre y0 post /\ (exists fs rest, gathered l fs rest ts) /\ logged y0 (today w) ts log log' /\
  r_site r = Site (Repo (Some (pre ++ y0 ++ post)) log' (Some l)) (Some f) /\
  (forall tag body, r_release r = Some (tag, body) -> tag = js "v" ++ c /\ body = notes c log').
Proof.
  intros V P X ND W SF CS. cbv zeta. set (t := Repo (Some (pre ++ x ++ post)) log (Some l)) in *. unfold auto. cbn [files crate].
  destruct (L_C90_default_patch t l eq_refl) as (b & rk & sc & any & EB & RK & MX & HAS); [intros n o I F; now apply (W n o)|].
  assert (HAS' : exists n z, In (n, Some z) l /\ fragment_name n /\ counts z rk).
  { destruct HAS as [HAS|[_ NO]]; [exact HAS|]. exfalso. destruct SF as (l' & n & o & [= <-] & I & F). now apply (NO n o). }
  rewrite EB. rewrite (proj2 (bump_some t _ EB) SF). apply says_found in CS as EC. rewrite EC.
  replace (output (js "bump_type") (bump_outputs b sc any)) with b by (unfold output, bump_outputs; reflexivity).
  destruct (rank_asks _ _ v RK) as (v' & A).
  assert (W1 : forall n o, In (n, o) l -> fragment_name n -> exists c z, o = Some c /\ worded c z) by (intros n o I F; now apply (W n o)).
  pose proof (L_C93_release (git w) b [] (today w) pre x post v v' log l A V P X ND W1) as D. fold t in D. cbv zeta in D.
  destruct (version_and_commit (git w) b [] (today w) t) as [rp out h e] eqn:EV. cbn [d_repo d_cmds d_out d_end] in *.
  destruct D as (y & cm & tm & fs & rest & ts & log' & D1 & D2 & D3 & D4 & D5 & D6 & D7 & D8 & D9 & _).
  assert (RS : forall r, r = match e with Exit0 => released w (Site (after t rp h) (Some f)) rp h c | Exit1 => Result (Site (after t rp h) (Some f)) None h Failed
                        | Inexact => Result (Site (after t rp h) (Some f)) None h Unclear end ->
            r_cmds r = h /\ r_site r = Site (after t rp h) (Some f) /\ (forall tag body, r_release r = Some (tag, body) -> tag = js "v" ++ c /\ body = notes c (chlog rp))).
  { intros r ->. destruct e; cbn [r_cmds r_site r_release]; [|repeat split; discriminate|repeat split; discriminate].
    destruct (released_site w (Site (after t rp h) (Some f)) rp h c) as [-> ->]. split; auto. split; auto.
    intros tag body M. apply release_made in M as ([= -> ->] & _). auto. }
  destruct (RS _ eq_refl) as (-> & -> & RL). clear RS. intros I1 I2. apply in_rev in I1, I2.
  assert (EY : y0 = y).
  { destruct (followed_cmds _ _ D8 _ I1) as (a & I). cbn [fst In plan] in I. repeat (destruct I as [I|I]; [try discriminate I|]); [|contradiction].
    injection I as I _ _. now subst. }
  subst y0. pose proof (followed_push _ _ _ _ _ D8 I2) as RT. specialize (D9 RT). subst rp.
  exists v', ts, log', b, rk. do 7 (split; auto). split; [eauto|]. split; auto. split; [|exact RL].
  unfold after. rewrite (proj2 (existsb_exists is_push h)) by (exists (Push, Returns); split; [now apply in_rev|reflexivity]). reflexivity.
Qed.
(** The job never changes doublets/Cargo.toml, nor the entries of changelog.d, and the branch only by a push. *)
Lemma L_C95_kept w s : let r := auto w s in
  crate (r_site r) = crate s /\ entries (files (r_site r)) = entries (files s) /\ (~ In (Push, Returns) (r_cmds r) -> r_site r = s).
Proof.
  cbv zeta. unfold auto. destruct (get_bump_type _ _) as [o [| |]]; [|auto|auto].
  destruct (same _ _).
  - set (d := version_and_commit _ _ _ _ _). set (s' := Site (after (files s) (d_repo d) (d_cmds d)) (crate s)).
    assert (K : crate s' = crate s /\ entries (files s') = entries (files s) /\ (~ In (Push, Returns) (d_cmds d) -> s' = s)).
    { split; auto. split; [apply after_entries|]. intros N. unfold s', after. destruct (existsb is_push (d_cmds d)) eqn:E; [|now destruct s].
      apply existsb_exists in E as ([c a] & I & E). destruct c, a; try discriminate E. contradiction. }
    destruct (d_end d); auto. destruct (released_site w s' (d_repo d) (d_cmds d) (shell_version (crate s))) as [-> ->]. exact K.
  - destruct (there w _); auto. destruct (released_site w s (files s) [] (shell_version (crate s))) as [-> ->]. auto.
Qed.
(** So all releases that runs of the job ever make have one tag. *)
Lemma L_C95_one_tag : forall ws s f x p, crate s = Some f -> crate_says f x -> In p (snd (run_jobs (map Auto ws) s)) -> fst p = js "v" ++ x.
Proof.
  induction ws as [|w ws IH]; intros s f x p C X I; [destruct I|]. cbn [map run_jobs run_job] in I.
  destruct (L_C95_kept w s) as (K & _). destruct (run_jobs (map Auto ws) (r_site (auto w s))) as [s' rs] eqn:E.
  assert (N : In p rs -> fst p = js "v" ++ x).
  { intros J. apply (IH (r_site (auto w s)) f x p); [congruence|auto|]. rewrite E. exact J. }
  destruct (r_release (auto w s)) as [[tag body]|] eqn:R; [|auto]. destruct I as [<-|I]; [|auto].
  destruct (L_C95_release _ _ _ _ R) as (f' & x' & C' & X' & -> & _). rewrite C in C'. injection C' as <-.
  apply says_found in X, X'. cbn [fst]. congruence.
Qed.

(** ** C96: the job manual-release, and jobs one after another *)
Lemma L_C96_release w arg desc s tag body : r_release (manual w arg desc s) = Some (tag, body) ->
  exists y t1, tag = js "v" ++ y /\ r_end (manual w arg desc s) = Passed /\ github w tag body = Made /\
  (some_fragment (files s) -> collect (today w) (files s) = (t1, Exit0)) /\ (~ some_fragment (files s) -> t1 = files s) /\
  let d := version_and_commit (git w) arg desc (today w) t1 in
  r_cmds (manual w arg desc s) = d_cmds d /\ builds w (d_repo d) = true /\ body = notes y (chlog (d_repo d)) /\
  (In (Rev_parse tag, Returns) (d_cmds d) \/ exists cm tm, rev (d_cmds d) = plan tag cm tm).
Proof.
  unfold manual. pose proof (any_spec (files s)) as AS.
  destruct (if any_fragment (files s) then collect (today w) (files s) else (files s, Exit0)) as [t1 [| |]] eqn:E; try discriminate.
  destruct (quotable desc); [|discriminate]. cbn [negb]. set (d := version_and_commit (git w) arg desc (today w) t1).
  destruct (d_end d) eqn:DE; try discriminate. destruct (script_ends _ _ _ _ _ DE) as (y & SD). fold d in SD. cbv zeta in SD.
  assert (T1 : (some_fragment (files s) -> collect (today w) (files s) = (t1, Exit0)) /\ (~ some_fragment (files s) -> t1 = files s)).
  { destruct (any_fragment (files s)).
    - split; auto. intros N. destruct N. now apply AS.
    - injection E as <-. split; auto. intros X. apply AS in X. discriminate. }
  assert (K1 : js "already_released" <> js "new_version") by (vm_compute; discriminate).
  assert (K2 : js "version_committed" <> js "new_version") by (vm_compute; discriminate).
  destruct SD as [(S1 & S2 & S3)|[(S1 & S2)|(S1 & S2)]].
  - rewrite S3. replace (same (output (js "version_committed") (told (js "already_released") y "true")) (js "true")) with false by (vm_compute; reflexivity).
    destruct (output_told (js "already_released") y "true" K1) as [-> ->]. cbn [orb]. rewrite same_refl. intros M.
    apply release_made in M as ([= -> ->] & NE & Q & BU & G & ->). exists y, t1. do 3 (split; auto). split; [apply T1|]. split; [apply T1|].
    cbv zeta. fold d. do 3 (split; auto). left. now apply in_rev.
  - rewrite S2. replace (same (output (js "already_released") (told (js "version_committed") y "false")) (js "true")) with false by (vm_compute; reflexivity).
    destruct (output_told (js "version_committed") y "false" K2) as [_ ->]. cbn [same js orb]. discriminate.
  - rewrite S2. destruct (output_told (js "version_committed") y "true" K2) as [-> ->]. rewrite same_refl. cbn [orb]. intros M.
    apply release_made in M as ([= -> ->] & NE & Q & BU & G & ->). exists y, t1. do 3 (split; auto). split; [apply T1|]. split; [apply T1|].
    cbv zeta. fold d. do 3 (split; auto).
Qed.
Lemma manual_kept w arg desc s : let r := manual w arg desc s in
  crate (r_site r) = crate s /\ entries (files (r_site r)) = entries (files s) /\ (~ In (Push, Returns) (r_cmds r) -> r_site r = s).
Proof.
  cbv zeta. unfold manual.
  destruct (if any_fragment (files s) then collect (today w) (files s) else (files s, Exit0)) as [t1 [| |]]; [|auto|auto].
  destruct (quotable desc); [|auto]. cbn [negb]. set (d := version_and_commit (git w) arg desc (today w) t1).
  set (s' := Site (after (files s) (d_repo d) (d_cmds d)) (crate s)).
  assert (K : crate s' = crate s /\ entries (files s') = entries (files s) /\ (~ In (Push, Returns) (d_cmds d) -> s' = s)).
  { split; auto. split; [apply after_entries|]. intros N. unfold s', after. destruct (existsb is_push (d_cmds d)) eqn:E; [|now destruct s].
    apply existsb_exists in E as ([c a] & I & E). destruct c, a; try discriminate E. contradiction. }
  destruct (d_end d); auto. destruct (_ || _); auto.
  destruct (released_site w s' (d_repo d) (d_cmds d) (output (js "new_version") (d_out d))) as [-> ->]. exact K.
Qed.
(** No job, and no sequence of jobs, changes doublets/Cargo.toml or removes a fragment from the branch. *)
Lemma L_C96_kept : forall jobs s, let s' := fst (run_jobs jobs s) in crate s' = crate s /\ entries (files s') = entries (files s).
Proof.
  cbv zeta. induction jobs as [|j jobs IH]; intros s; [auto|]. cbn [run_jobs]. destruct (IH (r_site (run_job j s))) as [K1 K2].
  destruct (run_jobs jobs (r_site (run_job j s))) as [s' rs]. cbn [fst] in *. rewrite K1, K2.
  destruct j; cbn [run_job]; [destruct (L_C95_kept w s) as (-> & -> & _)|destruct (manual_kept w arg desc s) as (-> & -> & _)]; auto.
Qed.
Lemma plain_harmless x v : plain x v -> harmless x.
Proof.
  intros (s1 & s2 & s3 & -> & R1 & R2 & R3).
  assert (D : forall s n c, reads s n -> In c s -> ~ In c [34; 36; 92; 96]).
  { intros s n c R I J. apply reads_digits in R. rewrite forallb_forall in R. apply R in I. cbn [In] in J.
    destruct J as [<-|[<-|[<-|[<-|[]]]]]; discriminate I. }
  intros c I. rewrite !in_app_iff in I. destruct I as [I|[I|[I|[I|I]]]]; eauto; destruct I as [<-|[]]; cbn [In]; intuition discriminate.
Qed.
(** Without fragments. *)
Lemma L_C96_no_fragments w arg desc pre x post v w' log l f : asks arg v w' -> version_at pre x post -> plain x v -> exact v -> NoDup (map fst l) ->
  harmless desc -> let t := Repo (Some (pre ++ x ++ post)) log (Some l) in ~ some_fragment t ->
  let r := manual w arg desc (Site t f) in
  exists y cm tm, plain y w' /\ later v w' /\ version_at pre y post /\
  message_of (js "chore: release v") y desc cm /\ message_of (js "Release v") y desc tm /\ followed (plan (js "v" ++ y) cm tm) (rev (r_cmds r)) /\
  (rev (r_cmds r) = plan (js "v" ++ y) cm tm -> r_site r = Site (Repo (Some (pre ++ y ++ post)) log (Some l)) f /\
    (builds w (Repo (Some (pre ++ y ++ post)) log (Some l)) = true -> github w (js "v" ++ y) (notes y log) = Made -> r_release r = Some (js "v" ++ y, notes y log))).
Proof.
  intros A V P X ND HD t NF. cbv zeta. pose proof (any_spec t) as AS. unfold manual. cbn [files crate].
  destruct (any_fragment t); [destruct NF; now apply AS|]. apply quotable_spec in HD. rewrite HD. cbn [negb].
  assert (W1 : forall n o, In (n, o) l -> fragment_name n -> exists c z, o = Some c /\ worded c z).
  { intros n o I F. destruct NF. exists l, n, o. auto. }
  pose proof (L_C93_release (git w) arg desc (today w) pre x post v w' log l A V P X ND W1) as D. fold t in D. cbv zeta in D.
  destruct (version_and_commit (git w) arg desc (today w) t) as [rp out h e] eqn:EV. cbn [d_repo d_cmds d_out d_end] in *.
  destruct D as (y & cm & tm & fs & rest & ts & log' & D1 & D2 & D3 & D4 & D5 & D6 & D7 & D8 & D9 & _ & _ & _ & D10 & _).
  assert (LL : log' = log).
  { assert (TS : paragraphs ts = []).
    { destruct D6 as ((G1 & G2 & _) & _ & G3). destruct fs as [|[n o] fs]; [inversion G3; reflexivity|]. destruct NF. inversion G2; subst.
      exists l, n, o. split; auto. split; auto. apply Permutation_sym in G1. apply (Permutation_in _ G1). now left. }
    unfold logged in D7. destruct log; auto. destruct D7 as [[_ ->]|[NE _]]; [auto|contradiction]. }
  subst log'.
  set (s' := Site (after t rp h) f).
  assert (RS : forall r, r = match e with Exit0 => if same (output (js "version_committed") out) (js "true") || same (output (js "already_released") out) (js "true")
                          then released w s' rp h (output (js "new_version") out) else Result s' None h Passed
                        | Exit1 => Result s' None h Failed | Inexact => Result s' None h Unclear end -> r_cmds r = h /\ r_site r = s').
  { intros r ->. destruct e; auto. destruct (_ || _); auto. destruct (released_site w s' rp h (output (js "new_version") out)) as [-> ->]. auto. }
  destruct (RS _ eq_refl) as (-> & ->). clear RS. exists y, cm, tm. do 6 (split; auto).
  intros PL. destruct (D10 PL) as [-> ->]. assert (RP : rp = Repo (Some (pre ++ y ++ post)) log (Some l)).
  { apply D9. rewrite PL. cbn [plan In]. auto. }
  split.
  - unfold s', after. rewrite (plan_pushes _ _ _ _ PL), RP. reflexivity.
  - intros BU G. assert (K2 : js "version_committed" <> js "new_version") by (vm_compute; discriminate).
    destruct (output_told (js "version_committed") y "true" K2) as [-> ->]. rewrite same_refl. cbn [orb]. rewrite <- RP in *.
    destruct (plain_no_quote _ _ D1) as [Y1 _]. rewrite released_made; subst rp; auto. now apply (plain_harmless y w').
Qed.
(** Versions only go up, and nothing else of the manifest changes; releases are of doublets/Cargo.toml's version or of a
    version later than the first. *)
Lemma kind_asks arg k v : kind_of arg = Some k -> exists w, asks arg v w /\ plain (new_version v k) w.
Proof.
  destruct v as [[a b] c]. unfold kind_of. intros E.
  destruct (same arg (js "major")) eqn:E1; [apply same_spec in E1; subst arg; injection E as <-; eexists; split; [apply asks_major|apply dotted_plain]|].
  destruct (same arg (js "minor")) eqn:E2; [apply same_spec in E2; subst arg; injection E as <-; eexists; split; [apply asks_minor|apply dotted_plain]|].
  destruct (same arg (js "patch")) eqn:E3; [apply same_spec in E3; subst arg; injection E as <-; eexists; split; [apply asks_patch|apply dotted_plain]|].
  discriminate.
Qed.
Lemma collected_cargo v date t t' : collect_changelog v date t = Some t' -> cargo t' = cargo t.
Proof.
  unfold collect_changelog. destruct (entries t); [|now intros [= <-]]. destruct (texts _); [|discriminate]. destruct (empty _); [now intros [= <-]|].
  destruct (chlog t); now intros [= <-].
Qed.
Lemma collect_cargo date t : cargo (fst (collect date t)) = cargo t.
Proof. unfold collect. destruct (cargo_version t); auto. destruct (collect_fragments t); auto. now destruct (empty _). Qed.
Lemma script_version git arg desc date t pre x post v : version_at pre x post -> plain x v -> exact v -> cargo t = Some (pre ++ x ++ post) ->
  let d := version_and_commit git arg desc date t in
  (cargo (d_repo d) = cargo t \/ exists w y, asks arg v w /\ plain y w /\ cargo (d_repo d) = Some (pre ++ y ++ post)) /\
  (d_end d = Exit0 -> exists w, asks arg v w /\ plain (output (js "new_version") (d_out d)) w).
Proof.
  intros V P X C. cbv zeta. destruct t as [c log es]. cbn [cargo] in C. subst c.
  destruct (version_and_commit git arg desc date _) as [r o c e] eqn:H. unfold version_and_commit in H.
  destruct (kind_of arg) as [k|] eqn:K; [|injection H as <- <- <- <-; split; [now left|discriminate]].
  destruct (kind_asks arg k v K) as (w & A & PY). rewrite (current_ok _ _ _ v) in H; auto. cbv iota in H. set (y := new_version v k) in *.
  assert (U : update_cargo y (Repo (Some (pre ++ x ++ post)) log es) = Some (Repo (Some (pre ++ y ++ post)) log es)).
  { cbn [update_cargo cargo chlog entries]. now rewrite (put_version_ok _ _ _ _ w). }
  repeat answer H.
  all: try (rewrite U in H; cbv iota in H; destruct (collect_changelog y date _) as [t2|] eqn:CC; [apply collected_cargo in CC; cbn [cargo] in CC|]; cbv iota in H; repeat answer H).
  all: injection H as <- <- <- <-; cbn [d_repo d_out d_end cargo].
  all: split; [first [now left | right; exists w, y; auto]|first [discriminate | intros _; exists w; split; [exact A|]]].
  all: unfold output; cbn [fold_left fst snd]; rewrite same_refl; exact PY.
Qed.
(** room for [n] more *)
Definition room_for (v : N * N * N) (n : nat) : Prop := fst (fst v) + N.of_nat n < 2 ^ 53 /\ snd (fst v) + N.of_nat n < 2 ^ 53 /\ snd v + N.of_nat n < 2 ^ 53.
Lemma room_exact v n : room_for v (S n) -> exact v.
Proof. unfold room_for, exact. lia. Qed.
Lemma room_less v n : room_for v (S n) -> room_for v n.
Proof. unfold room_for. lia. Qed.
Lemma room_asks arg v w n : asks arg v w -> room_for v (S n) -> room_for w n.
Proof. destruct 1; unfold room_for; cbn [fst snd]; lia. Qed.
Lemma later_trans u v w : later u v -> later v w -> later u w.
Proof. unfold later. lia. Qed.
Lemma job_version j s pre x post v f c : version_at pre x post -> plain x v -> exact v -> cargo (files s) = Some (pre ++ x ++ post) ->
  crate s = Some f -> crate_says f c ->
  (cargo (files (r_site (run_job j s))) = Some (pre ++ x ++ post) \/
   exists arg w y, asks arg v w /\ plain y w /\ cargo (files (r_site (run_job j s))) = Some (pre ++ y ++ post)) /\
  forall tag body, r_release (run_job j s) = Some (tag, body) -> tag = js "v" ++ c \/ exists arg w y, asks arg v w /\ plain y w /\ tag = js "v" ++ y.
Proof.
  intros V P X C CF CS.
  assert (AF : forall t0 d arg, cargo t0 = Some (pre ++ x ++ post) -> (cargo (d_repo d) = Some (pre ++ x ++ post) \/ exists w y, asks arg v w /\ plain y w /\ cargo (d_repo d) = Some (pre ++ y ++ post)) ->
    cargo (after t0 (d_repo d) (d_cmds d)) = Some (pre ++ x ++ post) \/ exists arg w y, asks arg v w /\ plain y w /\ cargo (after t0 (d_repo d) (d_cmds d)) = Some (pre ++ y ++ post)).
  { intros t0 d arg E0 H. unfold after. destruct (existsb is_push _); [|now left]. cbn [cargo]. destruct H as [H|(w & y & H)]; eauto 6. }
  destruct j as [w|w arg desc]; cbn [run_job].
  - split.
    + unfold auto. destruct (get_bump_type _ _) as [o [| |]]; [|now left|now left]. destruct (same _ _).
      * destruct (script_version (git w) (output (js "bump_type") o) [] (today w) (files s) pre x post v V P X C) as [S1 _]. rewrite C in S1. apply (AF (files s)) in S1; auto.
        set (d := version_and_commit _ _ _ _ _) in *. destruct (d_end d); auto. rewrite (proj1 (released_site _ _ _ _ _)). exact S1.
      * destruct (there w _); [now left|]. rewrite (proj1 (released_site _ _ _ _ _)). now left.
    + intros tag body R. left. destruct (L_C95_release _ _ _ _ R) as (f' & x' & C' & X' & -> & _). rewrite CF in C'. injection C' as <-. apply says_found in CS, X'. congruence.
  - unfold manual. destruct (if any_fragment (files s) then collect (today w) (files s) else (files s, Exit0)) as [t1 e1] eqn:E1.
    assert (C1 : cargo t1 = Some (pre ++ x ++ post)).
    { rewrite <- C. destruct (any_fragment (files s)); [|now injection E1 as <- _]. rewrite <- (collect_cargo (today w) (files s)), E1. reflexivity. }
    destruct e1; [|split; [now left|discriminate]|split; [now left|discriminate]]. destruct (quotable desc); [|split; [now left|discriminate]]. cbn [negb].
    destruct (script_version (git w) arg desc (today w) t1 pre x post v V P X C1) as [S1 S2]. rewrite C1 in S1. apply (AF (files s)) in S1; auto.
    set (d := version_and_commit _ _ _ _ _) in *. destruct (d_end d); [|split; [auto|discriminate]|split; [auto|discriminate]].
    destruct (_ || _); [|split; [auto|discriminate]]. rewrite (proj1 (released_site _ _ _ _ _)). split; [exact S1|].
    intros tag body R. apply release_made in R as ([= -> ->] & _). right. destruct (S2 eq_refl) as (w' & A & PY). eauto 6.
Qed.
Lemma L_C96_versions : forall jobs s pre x post v f c, version_at pre x post -> plain x v -> room_for v (length jobs) ->
  cargo (files s) = Some (pre ++ x ++ post) -> crate s = Some f -> crate_says f c ->
  (exists y w, version_at pre y post /\ plain y w /\ cargo (files (fst (run_jobs jobs s))) = Some (pre ++ y ++ post) /\ (w = v /\ y = x \/ later v w)) /\
  forall tag body, In (tag, body) (snd (run_jobs jobs s)) -> tag = js "v" ++ c \/ exists y w, plain y w /\ later v w /\ tag = js "v" ++ y.
Proof.
  induction jobs as [|j jobs IH]; intros s pre x post v f c V P R C CF CS.
  - split; [|intros ? ? []]. exists x, v. auto 6.
  - cbn [run_jobs length] in *. destruct (job_version j s pre x post v f c V P (room_exact _ _ R) C CF CS) as [J1 J2].
    assert (CF' : crate (r_site (run_job j s)) = Some f).
    { destruct j; cbn [run_job]; [destruct (L_C95_kept w s) as (-> & _)|destruct (manual_kept w arg desc s) as (-> & _)]; auto. }
    assert (J2' : forall tag body, r_release (run_job j s) = Some (tag, body) -> tag = js "v" ++ c \/ exists y w, plain y w /\ later v w /\ tag = js "v" ++ y).
    { intros tag body RR. destruct (J2 tag body RR) as [|(arg & w & y & A & PY & ->)]; auto. right. destruct (asks_kind _ _ _ A) as (_ & _ & _ & L). eauto. }
    assert (K : forall rs rs', (forall tag body, In (tag, body) rs -> tag = js "v" ++ c \/ exists y w, plain y w /\ later v w /\ tag = js "v" ++ y) ->
      rs' = match r_release (run_job j s) with Some p => p :: rs | None => rs end ->
      forall tag body, In (tag, body) rs' -> tag = js "v" ++ c \/ exists y w, plain y w /\ later v w /\ tag = js "v" ++ y).
    { intros rs rs' H -> tag body I. destruct (r_release (run_job j s)) as [p|]; [destruct I as [->|I]|]; eauto. }
    destruct (run_jobs jobs (r_site (run_job j s))) as [s' rs] eqn:ER. cbn [fst snd].
    destruct J1 as [J1|(arg & w & y & A & PY & J1)].
    + destruct (IH _ _ _ _ _ _ _ V P (room_less _ _ R) J1 CF' CS) as [I1 I2]. rewrite ER in *. cbn [fst snd] in *. split; [exact I1|]. eapply K; [exact I2|reflexivity].
    + destruct (plain_no_quote _ _ PY) as [Y1 Y2]. destruct (asks_kind _ _ _ A) as (_ & _ & _ & L).
      destruct (IH _ _ _ _ _ _ _ (version_at_other _ _ _ _ V Y1 Y2) PY (room_asks _ _ _ _ A R) J1 CF' CS) as [(y' & w' & I1 & I2 & I3 & I4) I5]. rewrite ER in *. cbn [fst snd] in *.
      split.
      * exists y', w'. do 3 (split; auto). right. destruct I4 as [[-> _]|I4]; [auto|eapply later_trans; eauto].
      * eapply K; [|reflexivity]. intros tag body I. destruct (I5 tag body I) as [|(z & u & Z1 & Z2 & ->)]; auto. right. exists z, u. split; auto. split; auto. eapply later_trans; eauto.
Qed.
(** A manifest without a version of three numbers: the manual job fails, and so does the automatic
    one once there are fragments; nothing is changed or released, however often they run. *)
Lemma begun_short tag cm tm run : begun (plan tag cm tm) run -> (length run <= 2)%nat -> ~ In (Push, Returns) run.
Proof.
  intros [->|(done & c & a & a' & rest & E & ->)] L; [intros []|]. unfold plan in E. rewrite app_length in L. cbn [length] in L.
  destruct done as [|d1 [|d2 done]]; [| |cbn [length] in L; lia]; cbn [app] in *.
  - injection E as <- _ _. intros [I|[]]. discriminate I.
  - injection E as <- <- _ _. intros [I|[I|[]]]; discriminate I.
Qed.
Lemma stuck_script w arg desc t t0 : (forall m, cargo t = Some m -> no_plain m) ->
  let d := version_and_commit (git w) arg desc (today w) t in d_end d = Exit1 /\ after t0 (d_repo d) (d_cmds d) = t0.
Proof.
  intros NP. cbv zeta. destruct (L_C93_no_version (git w) arg desc (today w) t NP) as (_ & _ & E & L). split; auto.
  destruct (L_C93_commands (git w) arg desc (today w) t) as (_ & _ & v & cm & tm & _ & _ & B & _).
  apply begun_short in B; [|now rewrite rev_length]. unfold after. destruct (existsb is_push _) eqn:X; auto.
  apply existsb_exists in X as ([c a] & I & X). destruct c, a; try discriminate X. destruct B. apply in_rev in I. exact I.
Qed.
Lemma stuck_job j s : (forall m, cargo (files s) = Some m -> no_plain m) -> some_fragment (files s) ->
  r_site (run_job j s) = s /\ r_release (run_job j s) = None /\ r_end (run_job j s) <> Passed.
Proof.
  intros NP SF. destruct j as [w|w arg desc]; cbn [run_job].
  - unfold auto. destruct (get_bump_type (js "patch") (files s)) as [o [| |]] eqn:E; try (split; [|split]; auto; discriminate).
    rewrite (proj2 (bump_some _ _ E) SF). destruct (stuck_script w (output (js "bump_type") o) [] (files s) (files s) NP) as [-> ->].
    split; [now destruct s|split; auto; discriminate].
  - unfold manual. apply any_spec in SF as AF. rewrite AF. destruct (collect (today w) (files s)) as [t1 [| |]] eqn:E; try (split; [|split]; auto; discriminate).
    destruct (quotable desc); [|split; [|split]; auto; discriminate]. cbn [negb].
    assert (C : cargo t1 = cargo (files s)).
    { unfold collect in E. destruct (cargo_version _); [|now injection E as <-]. destruct (collect_fragments _); [|now injection E as <-].
      destruct (empty _); now injection E as <-. }
    destruct (stuck_script w arg desc t1 (files s)) as [-> ->]; [rewrite C; exact NP|]. split; [now destruct s|split; auto; discriminate].
Qed.
Lemma L_C96_stuck : forall jobs s, (forall m, cargo (files s) = Some m -> no_plain m) -> some_fragment (files s) ->
  run_jobs jobs s = (s, []) /\ forall j, r_end (run_job j s) <> Passed.
Proof.
  intros jobs s NP SF. split; [|intros j; now apply stuck_job]. induction jobs as [|j jobs IH]; auto.
  cbn [run_jobs]. destruct (stuck_job j s NP SF) as (-> & -> & _). now rewrite IH.
Qed.

(** ** Cases *)
(** a day on which all goes well, and one on which GitHub has the release already *)
Definition ex_world : world := World ex_git (fun _ => false) (fun _ => true) (fun _ _ => Made) (js "2026-11-17").
Definition ex_again : world := World ex_git (fun _ => false) (fun _ => true) (fun _ _ => Exists) (js "2026-11-18").
(** the crate at the version it has in the repository *)
Definition ex_crate : str := ex_manifest "0.1.0-pre+beta.15" "1.0.1".
Definition ex_site : site := Site ex_repo (Some ex_crate).
(** the same, without fragments *)
Definition ex_rest : repo := Repo (Some (ex_manifest "0.1.9" "1.0.1")) (Some ex_log) (Some [(js "README.md", Some (js "about"))]).
Lemma ex_crate_says : crate_says ex_crate (js "0.1.0-pre+beta.15").
Proof.
  assert (E : shell_version (Some ex_crate) = js "0.1.0-pre+beta.15") by (vm_compute; reflexivity).
  rewrite <- E. apply found_says. rewrite E. discriminate.
Qed.
Lemma ex_some : some_fragment ex_repo.
Proof. apply any_spec. vm_compute. reflexivity. Qed.
Lemma ex_none : ~ some_fragment ex_rest.
Proof. intros H. apply any_spec in H. vm_compute in H. discriminate. Qed.
Lemma ex_harmless s : quotable s = true -> harmless s.
Proof. apply quotable_spec. Qed.

Lemma L_C95_nonvacuous : exists pre post v, version_at pre (js "0.1.9") post /\ plain (js "0.1.9") v /\ exact v /\ NoDup (map fst ex_frags) /\
  (forall n o, In (n, o) ex_frags -> fragment_name n -> (exists c z, o = Some c /\ worded c z) /\ exists c d, o = Some c /\ fragment c d) /\
  ex_repo = Repo (Some (pre ++ js "0.1.9" ++ post)) (Some ex_log) (Some ex_frags) /\ some_fragment ex_repo /\ crate_says ex_crate (js "0.1.0-pre+beta.15") /\
  let r := auto ex_world ex_site in
  rev (r_cmds r) = plan (js "v0.2.0") (js "chore: release v0.2.0") (js "Release v0.2.0") /\ r_end r = Passed /\
  cargo (files (r_site r)) = Some (ex_manifest "0.2.0" "1.0.1") /\ notes (js "0.2.0") (chlog (files (r_site r))) = paragraphs ex_ts /\
  r_release r = Some (js "v0.1.0-pre+beta.15", js "### Added
- Initial implementation of doublets library").
Proof.
  destruct ex_gathered as (ND & W & G). destruct ex_version as (V & P & _). eexists _, _, (0, 1, 9).
  split; [exact V|]. split; [exact P|]. split; [repeat split|]. split; [exact ND|]. split.
  { intros n o I F. split; [eapply W; eauto|]. destruct I as [[= <- <-]|[[= <- <-]|[[= <- <-]|[]]]].
    - eexists _, _. split; [reflexivity|apply ex_fragment; cbn; auto].
    - apply is_fragment_spec in F. vm_compute in F. discriminate.
    - eexists _, _. split; [reflexivity|apply ex_fragment; cbn; auto]. }
  split; [vm_compute; reflexivity|]. split; [exact ex_some|]. split; [exact ex_crate_says|].
  repeat (split; [vm_compute; reflexivity|]). vm_compute. reflexivity.
Qed.
Lemma L_C95_quiet_nonvacuous : ~ some_fragment ex_rest /\ crate_says ex_crate (js "0.1.0-pre+beta.15") /\ harmless (js "0.1.0-pre+beta.15") /\
  auto ex_world (Site ex_rest (Some ex_crate)) = Result (Site ex_rest (Some ex_crate)) (Some (js "v0.1.0-pre+beta.15", js "### Added
- Initial implementation of doublets library")) [] Passed.
Proof.
  split; [exact ex_none|]. split; [exact ex_crate_says|]. split; [apply ex_harmless; vm_compute; reflexivity|]. vm_compute. reflexivity.
Qed.
(** A run that commits, tags and pushes a version releases that version, with the changes it collected. It releases
    another; and where GitHub has that one already, all later versions are tagged and none of them is released. *)
Lemma L_C95_version_refuted :
  let r := auto ex_world ex_site in let r2 := auto ex_again (r_site r) in
  In (Tag (js "v0.2.0") (js "Release v0.2.0"), Returns) (r_cmds r) /\ In (Push, Returns) (r_cmds r) /\
  (exists body, r_release r = Some (js "v0.1.0-pre+beta.15", body) /\ body <> paragraphs ex_ts) /\
  In (Tag (js "v0.3.0") (js "Release v0.3.0"), Returns) (r_cmds r2) /\ In (Push, Returns) (r_cmds r2) /\ r_end r2 = Passed /\ r_release r2 = None /\
  map fst (snd (run_jobs [Auto ex_world; Auto ex_again; Auto ex_again] ex_site)) = [js "v0.1.0-pre+beta.15"].
Proof.
  split; [vm_compute; auto 10|]. split; [vm_compute; auto 10|]. split; [eexists; split; [vm_compute; reflexivity|discriminate]|].
  split; [vm_compute; auto 10|]. split; [vm_compute; auto 10|]. split; [vm_compute; reflexivity|]. split; vm_compute; reflexivity.
Qed.

Lemma L_C96_nonvacuous : exists pre post v w, asks (js "major") v w /\ version_at pre (js "0.1.9") post /\ plain (js "0.1.9") v /\ exact v /\
  ex_rest = Repo (Some (pre ++ js "0.1.9" ++ post)) (Some ex_log) (entries ex_rest) /\ ~ some_fragment ex_rest /\ harmless (js "as asked") /\
  let r := manual ex_world (js "major") (js "as asked") (Site ex_rest (Some ex_crate)) in
  rev (r_cmds r) = plan (js "v1.0.0") (js "chore: release v1.0.0

as asked") (js "Release v1.0.0

as asked") /\ r_end r = Passed /\ cargo (files (r_site r)) = Some (ex_manifest "1.0.0" "1.0.1") /\ r_release r = Some (js "v1.0.0", js "Release v1.0.0").
Proof.
  destruct ex_version as (V & P & _). eexists _, _, (0, 1, 9), _. split; [apply asks_major|]. split; [exact V|]. split; [exact P|]. split; [repeat split|].
  split; [vm_compute; reflexivity|]. split; [exact ex_none|]. split; [apply ex_harmless; vm_compute; reflexivity|].
  repeat (split; [vm_compute; reflexivity|]). vm_compute. reflexivity.
Qed.
Definition ex_jobs : list job := [Manual ex_world (js "minor") []; Auto ex_world; Manual ex_world (js "major") []].
Lemma L_C96_versions_nonvacuous : exists pre post v, version_at pre (js "0.1.9") post /\ plain (js "0.1.9") v /\ room_for v (length ex_jobs) /\
  cargo (files ex_site) = Some (pre ++ js "0.1.9" ++ post) /\ crate ex_site = Some ex_crate /\ crate_says ex_crate (js "0.1.0-pre+beta.15") /\
  cargo (files (fst (run_jobs ex_jobs ex_site))) = Some (ex_manifest "1.0.0" "1.0.1") /\
  map fst (snd (run_jobs ex_jobs ex_site)) = [js "v0.2.0"; js "v0.1.0-pre+beta.15"; js "v1.0.0"].
Proof.
  destruct ex_version as (V & P & _). eexists _, _, (0, 1, 9). split; [exact V|]. split; [exact P|]. split; [repeat split; vm_compute; reflexivity|].
  split; [vm_compute; reflexivity|]. split; [reflexivity|]. split; [exact ex_crate_says|]. split; vm_compute; reflexivity.
Qed.
(** The notes of a release tell the changes collected for it. They do not: the changes are in the changelog under the
    version before. *)
Lemma L_C96_notes_refuted :
  let r := manual ex_world (js "minor") [] ex_site in
  r_release r = Some (js "v0.2.0", js "Release v0.2.0") /\ notes (js "0.1.9") (chlog (files (r_site r))) = paragraphs ex_ts /\ paragraphs ex_ts <> [].
Proof. repeat (split; [vm_compute; reflexivity|]). discriminate. Qed.
(** A change is told once. It is told again by each run, as its fragment stays on the branch. *)
Lemma L_C96_once_refuted :
  let s1 := r_site (manual ex_world (js "minor") [] ex_site) in let s2 := r_site (manual ex_world (js "minor") [] s1) in
  let s3 := r_site (auto ex_again s2) in
  entries (files s3) = Some ex_frags /\
  map (fun v => notes (js v) (chlog (files s3))) ["0.1.9"; "0.2.0"; "0.4.0"]%string = [paragraphs ex_ts; paragraphs ex_ts; paragraphs ex_ts] /\ paragraphs ex_ts <> [].
Proof. repeat (split; [vm_compute; reflexivity|]). discriminate. Qed.
(** As the repository is, with a manifest that has no version and a fragment in changelog.d, no run of a job passes or
    makes a release. *)
Lemma L_C96_repository : forall jobs log c body,
  let s := Site (Repo (Some ex_workspace) log (Some [(js "20251228_030839_ai_driven_pipeline.md", body); (js "README.md", Some (js "about"))])) c in
  run_jobs jobs s = (s, []) /\ forall j, r_end (run_job j s) <> Passed.
Proof.
  intros jobs log c body s. apply L_C96_stuck.
  - intros m [= <-] b z w1 w2 x v r E _ _ _ _ ->. revert E. apply cut_none. vm_compute. reflexivity.
  - apply any_spec. vm_compute. reflexivity.
Qed.
