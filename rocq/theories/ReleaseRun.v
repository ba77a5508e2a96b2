(** A release as a whole (scripts/version-and-commit.mjs) and the check of the sizes of files
    (scripts/check-file-size.mjs). *)
From Coq Require Import Ascii String Arith NArith List Bool Lia Permutation Sorted.
From Verif Require Import JsText Release ReleaseVersion ReleaseNotes ReleaseLog.
Import ListNotations.
Open Scope N_scope.

(** ** Specification of a release *)
(** the commands of a release, in order, and the answers with which it goes on *)
Definition plan (tag commit_msg tag_msg : str) : list (command * answer) :=
  [(Config_name, Returns); (Config_mail, Returns); (Rev_parse tag, Throws); (Add, Returns); (Diff, Throws);
   (Commit commit_msg, Returns); (Tag tag tag_msg, Returns); (Push, Returns); (Push_tags, Returns)].
(** the message of the commit or tag of a version *)
Definition message_of (head v desc msg : str) : Prop :=
  (desc = [] /\ msg = head ++ v) \/ (desc <> [] /\ msg = head ++ v ++ nl ++ nl ++ desc).
(** begun, and no further than the answers allow *)
Definition begun (p run : list (command * answer)) : Prop :=
  run = [] \/ exists done c a a' rest, p = done ++ (c, a) :: rest /\ run = done ++ [(c, a')].
(** run to the first command that answers otherwise, or to the end *)
Definition followed (p run : list (command * answer)) : Prop :=
  exists done c a a' rest, p = done ++ (c, a) :: rest /\ run = done ++ [(c, a')] /\ (a' = a -> rest = []).
(** The answers, latest first, are those of [git]. *)
Fixpoint answered (git : list (command * answer) -> command -> answer) (h : list (command * answer)) : Prop :=
  match h with
  | [] => True
  | (c, a) :: h' => a = git h' c /\ answered git h'
  end.
(** the section [e] put in its place, without regard to the mark *)
Inductive filed (e : str) : str -> str -> Prop :=
| filed_heading b a : lf_start b ->
    (forall b1 y, lf_start b1 -> b ++ js "## [" ++ a = b1 ++ js "## [" ++ y -> (length b <= length b1)%nat) ->
    filed e (b ++ js "## [" ++ a) (b ++ e ++ nl ++ js "## [" ++ a)
| filed_end old : headless old -> filed e old (old ++ e).
(** the changelog of the release of a version: it is not made if it is not there *)
Definition logged (version date : str) (ts : list str) (log log' : option str) : Prop :=
  match log with
  | None => log' = None
  | Some old => (paragraphs ts = [] /\ log' = Some old) \/
                (paragraphs ts <> [] /\ exists new, log' = Some new /\ filed (section version date (paragraphs ts)) old new)
  end.
(** what is told *)
Definition told (key version : str) (value : string) : outputs := [(key, js value); (js "new_version", version)].

(** ** Proofs *)
Lemma message_ok head v desc : message_of head v desc (message (head ++ v) desc).
Proof.
  unfold message_of, message. destruct desc; [left; auto|right]. split; [discriminate|]. cbn [empty]. now rewrite <- app_assoc.
Qed.
Lemma at_heading_filed e old : filed e old (at_heading e old).
Proof. destruct (at_heading_parts e old) as [(b & a & -> & L & F & ->)|[H ->]]; now constructor. Qed.
Lemma collect_ok v date c log l : NoDup (map fst l) ->
  (forall n o, In (n, o) l -> fragment_name n -> exists c x, o = Some c /\ worded c x) ->
  exists fs rest ts log', gathered l fs rest ts /\ logged v date ts log log' /\
  collect_changelog v date (Repo c log (Some l)) = Some (Repo c log' (Some l)).
Proof.
  intros ND W. destruct (gather l ND W) as (ts & G & E). exists (sorted_fragments l), (without_fragments l), ts.
  unfold collect_changelog. cbn [entries chlog cargo]. rewrite E. fold (paragraphs ts).
  destruct (paragraphs ts) as [|x p] eqn:EP.
  - exists log. split; [exact G|]. split; [|reflexivity]. destruct log as [old|]; [|reflexivity]. left. auto.
  - cbn [empty]. rewrite <- EP in *. destruct log as [old|]; [|exists None; split; [|split]; auto; reflexivity].
    eexists. split; [exact G|]. split; [|reflexivity]. right. split; [congruence|]. eexists. split; [reflexivity|apply at_heading_filed].
Qed.
Lemma asked git c h a : git h c = a -> ask git c h = (c, a) :: h /\ throws git h c = match a with Throws => true | Returns => false end.
Proof. intros <-. split; [reflexivity|]. reflexivity. Qed.
(** the answer of the next command in the hypothesis [H] *)
Ltac answer H :=
  let next git h c :=
    let A := fresh "A" in let E1 := fresh "E" in let E2 := fresh "E" in
    destruct (git h c) eqn:A; destruct (asked _ _ _ _ A) as [E1 E2]; rewrite ?E1, ?E2 in H; clear E1 E2; change (negb true) with false in H; change (negb false) with true in H; cbv beta iota in H in
  match type of H with
  | (if throws ?git ?h ?c then _ else _) = _ => next git h c
  | (if negb (throws ?git ?h ?c) then _ else _) = _ => next git h c
  end.
Ltac pick fin := first [exists []; fin | eexists [_]; fin | eexists [_;_]; fin | eexists [_;_;_]; fin | eexists [_;_;_;_]; fin | eexists [_;_;_;_;_]; fin |
  eexists [_;_;_;_;_;_]; fin | eexists [_;_;_;_;_;_;_]; fin | eexists [_;_;_;_;_;_;_;_]; fin].

(** ** C93 *)
(** whatever the files are *)
Lemma L_C93_commands git arg desc date t : let d := version_and_commit git arg desc date t in
  answered git (d_cmds d) /\ entries (d_repo d) = entries t /\
  exists v cm tm, message_of (js "chore: release v") v desc cm /\ message_of (js "Release v") v desc tm /\
  begun (plan (js "v" ++ v) cm tm) (rev (d_cmds d)) /\
  (d_repo d <> t -> In (Rev_parse (js "v" ++ v), Throws) (d_cmds d)) /\
  (In (js "version_committed", js "true") (d_out d) <-> rev (d_cmds d) = plan (js "v" ++ v) cm tm).
Proof.
  cbv zeta. destruct (version_and_commit git arg desc date t) as [r o c e] eqn:H. unfold version_and_commit in H.
  destruct (kind_of arg) as [k|].
  2:{ injection H as <- <- <- <-. cbn. split; auto. split; auto. exists [], (message (js "chore: release v" ++ []) desc), (message (js "Release v" ++ []) desc).
      split; [apply message_ok|]. split; [apply message_ok|]. split; [now left|]. split; [congruence|]. split; [contradiction|discriminate]. }
  assert (EC : forall v t1 t2, update_cargo v t = Some t1 -> collect_changelog v date t1 = Some t2 -> entries t1 = entries t /\ entries t2 = entries t).
  { intros v t1 t2 U C. unfold update_cargo in U. destruct (cargo t); [|discriminate]. injection U as <-. split; auto.
    unfold collect_changelog in C. cbn [entries] in C. destruct (entries t) as [l|]; [|injection C as <-; reflexivity].
    destruct (texts _); [|discriminate]. destruct (empty _); [injection C as <-; reflexivity|]. cbn [chlog] in C. destruct (chlog t); injection C as <-; reflexivity. }
  assert (EU : forall v t1, update_cargo v t = Some t1 -> entries t1 = entries t).
  { intros v t1 U. unfold update_cargo in U. destruct (cargo t); [|discriminate]. now injection U as <-. }
  destruct (current_version t) as [cur| |].
  1: set (v := new_version cur k) in *; destruct (update_cargo v t) as [t1|] eqn:U; [destruct (collect_changelog v date t1) as [t2|] eqn:C; [destruct (EC _ _ _ U C) as [Q1 Q2]|pose proof (EU _ _ U) as Q1]|].
  all: cbv iota in H; repeat answer H.
  all: try (rewrite U in H; cbv iota in H; try (rewrite C in H; cbv iota in H); repeat answer H).
  all: injection H as <- <- <- <-; cbn [d_cmds d_repo d_out rev app answered]; (split; [now repeat split|]); (split; [assumption || reflexivity|]).
  all: first [exists v, (message (js "chore: release v" ++ v) desc), (message (js "Release v" ++ v) desc)
             |exists [], (message (js "chore: release v" ++ []) desc), (message (js "Release v" ++ []) desc)].
  all: (split; [apply message_ok|]); (split; [apply message_ok|]); split.
  all: match goal with |- begun _ _ => right; unfold plan; pick ltac:(eexists _, _, _, _; split; reflexivity) | _ => idtac end.
  all: split; [intros X; first [congruence | cbn [In]; tauto]|].
  all: try (split; [intros [X|X]; [|destruct X as [X|X]; [|contradiction]]; discriminate X|discriminate]).
  all: try (split; [contradiction|discriminate]).
  split; [reflexivity|]. intros _. now left.
Qed.

(** with a version in the file and readable fragments *)
Lemma L_C93_release git arg desc date pre x post v w log l : asks arg v w -> version_at pre x post -> plain x v -> exact v -> NoDup (map fst l) ->
  (forall n o, In (n, o) l -> fragment_name n -> exists c z, o = Some c /\ worded c z) ->
  let t := Repo (Some (pre ++ x ++ post)) log (Some l) in
  let d := version_and_commit git arg desc date t in
  let run := rev (d_cmds d) in
  exists y cm tm fs rest ts log', plain y w /\ later v w /\ version_at pre y post /\
  message_of (js "chore: release v") y desc cm /\ message_of (js "Release v") y desc tm /\
  gathered l fs rest ts /\ logged y date ts log log' /\
  followed (plan (js "v" ++ y) cm tm) run /\
  (In (Rev_parse (js "v" ++ y), Throws) run -> d_repo d = Repo (Some (pre ++ y ++ post)) log' (Some l)) /\
  (~ In (Rev_parse (js "v" ++ y), Throws) run -> d_repo d = t) /\
  (In (Rev_parse (js "v" ++ y), Returns) run -> d_out d = told (js "already_released") y "true" /\ d_end d = Exit0) /\
  (In (Diff, Returns) run -> d_out d = told (js "version_committed") y "false" /\ d_end d = Exit0) /\
  (run = plan (js "v" ++ y) cm tm -> d_out d = told (js "version_committed") y "true" /\ d_end d = Exit0) /\
  (~ In (Rev_parse (js "v" ++ y), Returns) run -> ~ In (Diff, Returns) run -> run <> plan (js "v" ++ y) cm tm -> d_out d = [] /\ d_end d = Exit1).
Proof.
  intros A V P X ND W t. destruct (asks_kind _ _ _ A) as (k & K & PY & L). destruct (plain_no_quote _ _ PY) as [Y1 Y2].
  assert (VY : version_at pre (new_version v k) post) by (eapply version_at_other; eauto).
  destruct (collect_ok (new_version v k) date (Some (pre ++ new_version v k ++ post)) log l ND W) as (fs & rest & ts & log' & G & LG & C).
  cbv zeta. destruct (version_and_commit git arg desc date t) as [r o c e] eqn:H. unfold version_and_commit in H. rewrite K in H. unfold t in *. rewrite (current_ok _ _ _ v) in H; auto.
  assert (U : update_cargo (new_version v k) (Repo (Some (pre ++ x ++ post)) log (Some l)) = Some (Repo (Some (pre ++ new_version v k ++ post)) log (Some l))).
  { cbn [update_cargo cargo chlog entries]. now rewrite (put_version_ok _ _ _ _ w). }
  set (y := new_version v k) in *. cbv iota in H. repeat answer H.
  all: try (rewrite U in H; cbv iota in H; rewrite C in H; cbv iota in H; repeat answer H).
  all: injection H as <- <- <- <-.
  all: exists y, (message (js "chore: release v" ++ y) desc), (message (js "Release v" ++ y) desc), fs, rest, ts, log'.
  all: do 3 (split; [assumption|]); do 2 (split; [apply message_ok|]); do 2 (split; [assumption|]).
  all: clear; cbn [d_cmds d_repo d_out d_end rev app]; split.
  all: match goal with |- followed _ _ => unfold followed, plan; pick ltac:(eexists _, _, _, _; split; [reflexivity|split; [reflexivity|]]; first [discriminate | reflexivity]) | _ => idtac end.
  all: cbn [In].
  all: split; [intros Q; repeat destruct Q as [Q|Q]; (reflexivity || discriminate Q || contradiction)|].
  all: split; [intros Q; first [reflexivity | exfalso; tauto]|].
  all: split; [intros Q; repeat destruct Q as [Q|Q]; (discriminate Q || contradiction || now split)|].
  all: split; [intros Q; repeat destruct Q as [Q|Q]; (discriminate Q || contradiction || now split)|].
  all: split; [intros Q; (discriminate Q || now split)|].
  all: intros Q1 Q2 Q3; first [now split | exfalso; tauto | contradiction Q3; reflexivity].
Qed.
(** with a fragment that cannot be read: the manifest in the working tree has the new version, and that is all *)
Lemma L_C93_unreadable git arg desc date pre x post v w log l n : asks arg v w -> version_at pre x post -> plain x v -> exact v ->
  In (n, None) l -> fragment_name n ->
  let t := Repo (Some (pre ++ x ++ post)) log (Some l) in
  let d := version_and_commit git arg desc date t in
  let run := rev (d_cmds d) in
  exists y, plain y w /\ later v w /\ version_at pre y post /\ (length run <= 3)%nat /\
  (run = [(Config_name, Returns); (Config_mail, Returns); (Rev_parse (js "v" ++ y), Throws)] ->
     d = Did (Repo (Some (pre ++ y ++ post)) log (Some l)) [] (rev run) Exit1) /\
  (run = [(Config_name, Returns); (Config_mail, Returns); (Rev_parse (js "v" ++ y), Returns)] ->
     d = Did t (told (js "already_released") y "true") (rev run) Exit0) /\
  (~ In (Config_name, Returns) run \/ ~ In (Config_mail, Returns) run -> d = Did t [] (rev run) Exit1).
Proof.
  intros A V P X I F t. destruct (asks_kind _ _ _ A) as (k & K & PY & L). destruct (plain_no_quote _ _ PY) as [Y1 Y2].
  assert (VY : version_at pre (new_version v k) post) by (eapply version_at_other; eauto).
  assert (C : collect_changelog (new_version v k) date (Repo (Some (pre ++ new_version v k ++ post)) log (Some l)) = None).
  { unfold collect_changelog. cbn [entries]. assert (Z : In (n, None) (sorted_fragments l)) by (now apply sorted_in).
    assert (H : forall l, In (n, None) l -> texts l = None).
    { clear. induction l as [|[m [c|]] l IH]; intros I; auto; [destruct I|]. destruct I as [Y|I]; [discriminate|]. cbn [texts]. now rewrite IH. }
    now rewrite H. }
  cbv zeta. destruct (version_and_commit git arg desc date t) as [r o c e] eqn:H. unfold version_and_commit in H. rewrite K in H. unfold t in *. rewrite (current_ok _ _ _ v) in H; auto.
  assert (U : update_cargo (new_version v k) (Repo (Some (pre ++ x ++ post)) log (Some l)) = Some (Repo (Some (pre ++ new_version v k ++ post)) log (Some l))).
  { cbn [update_cargo cargo chlog entries]. now rewrite (put_version_ok _ _ _ _ w). }
  set (y := new_version v k) in *. cbv iota in H. repeat answer H.
  all: try (rewrite U in H; cbv iota in H; rewrite C in H; cbv iota in H).
  all: injection H as <- <- <- <-; exists y; do 3 (split; [assumption|]); clear; cbn [d_cmds rev app In]; (split; [cbn [length]; lia|]).
  all: split; [intros Q; (discriminate Q || reflexivity)|].
  all: split; [intros Q; (discriminate Q || reflexivity)|].
  all: intros Q; first [reflexivity | exfalso; tauto].
Qed.
(** nothing is done *)
Lemma L_C93_bad_argument git arg desc date t : ~ In arg [js "major"; js "minor"; js "patch"] ->
  version_and_commit git arg desc date t = Did t [] [] Exit1.
Proof.
  intros NI. unfold version_and_commit, kind_of.
  assert (D : forall b, In b [js "major"; js "minor"; js "patch"] -> same arg b = false) by (intros b I; apply same_neq; intros ->; auto).
  rewrite !D by (cbn [In]; auto).
  reflexivity.
Qed.
Lemma failed git arg desc date t : current_version t = Fails ->
  let d := version_and_commit git arg desc date t in d_repo d = t /\ d_out d = [] /\ d_end d = Exit1 /\ (length (d_cmds d) <= 2)%nat.
Proof.
  intros E. cbv zeta. destruct (version_and_commit git arg desc date t) as [r o c e] eqn:H. unfold version_and_commit in H. rewrite E in H. cbv iota in H.
  destruct (kind_of arg) as [k|]; [repeat answer H|].
  all: injection H as <- <- <- <-; split; [reflexivity|split; [reflexivity|split; [reflexivity|cbn; lia]]].
Qed.
Lemma L_C93_no_version git arg desc date t : (forall f, cargo t = Some f -> no_plain f) ->
  let d := version_and_commit git arg desc date t in d_repo d = t /\ d_out d = [] /\ d_end d = Exit1 /\ (length (d_cmds d) <= 2)%nat.
Proof.
  intros W. pose proof (L_C89_no_version (js "patch") false t W) as B. unfold bump_version in B. change (kind_of (js "patch")) with (Some Patch) in B. cbv iota in B.
  assert (E : current_version t = Fails).
  { destruct (current_version t) as [cur| |] eqn:E; auto; [|discriminate B].
    exfalso. unfold current_version in E. destruct (cargo t) as [f|]; [|discriminate]. specialize (W f eq_refl).
    destruct (exec r_plain f) as [[[b ps] rest]|] eqn:E'; [|discriminate]. unfold exec in E'.
    apply find_sound in E' as (s & -> & M & _). apply mt_sound in M. apply plain_parts in M as (A & w1 & w2 & x & v & r & -> & B1 & B2 & P).
    apply (W b _ w1 w2 x v r eq_refl); auto. now apply line_start_spec. }
  now apply failed.
Qed.
(** The notes of a version just released are its section. *)
Lemma L_C93_notes y w date ts log log' old : plain y w -> one_line date -> log = Some old -> logged y date ts log log' ->
  paragraphs ts <> [] -> headless (paragraphs ts) -> tidy (paragraphs ts) -> no_mention y old -> notes y log' = paragraphs ts.
Proof.
  intros PY OD -> LG NE HL TD NM. destruct LG as [[E _]|(_ & new & -> & F)]; [contradiction|].
  assert (NY : ~ In 10 y).
  { destruct PY as (s1 & s2 & s3 & -> & R1 & R2 & R3). apply reads_digits in R1, R2, R3. rewrite forallb_forall in R1, R2, R3.
    rewrite !in_app_iff. cbn [js In]. intros [I|[[I|[]]|[I|[[I|[]]|I]]]]; try discriminate I; [apply R1 in I|apply R2 in I|apply R3 in I]; discriminate I. }
  inversion F as [b a L F1 E1 E2|o H E1 E2]; subst.
  - apply notes_ok; auto; [right; exists [], a; split; [reflexivity|constructor]|]. apply no_mention_nl; auto. eapply no_mention_app; eauto.
  - rewrite <- (app_nil_r (section y date (paragraphs ts))). apply notes_ok; auto; [left; constructor|]. now apply no_mention_nl.
Qed.

(** ** Cases *)
(** a new version: no such tag, and something to commit *)
Definition ex_git (h : list (command * answer)) (c : command) : answer := match c with Rev_parse _ | Diff => Throws | _ => Returns end.
(** pushing fails *)
Definition ex_offline (h : list (command * answer)) (c : command) : answer := match c with Rev_parse _ | Diff | Push => Throws | _ => Returns end.
Definition ex_run git arg := version_and_commit git arg [] (js "2026-11-17").
Lemma L_C93_nonvacuous : exists pre post fs rest v w, asks (js "minor") v w /\ version_at pre (js "0.1.9") post /\ plain (js "0.1.9") v /\ exact v /\
  ex_repo = Repo (Some (pre ++ js "0.1.9" ++ post)) (Some ex_log) (Some ex_frags) /\ NoDup (map fst ex_frags) /\
  (forall n o, In (n, o) ex_frags -> fragment_name n -> exists c x, o = Some c /\ worded c x) /\ gathered ex_frags fs rest ex_ts /\
  plain (js "0.2.0") w /\ no_mention (js "0.2.0") ex_log /\ headless (paragraphs ex_ts) /\ tidy (paragraphs ex_ts) /\
  let d := ex_run ex_git (js "minor") ex_repo in
  rev (d_cmds d) = plan (js "v0.2.0") (js "chore: release v0.2.0") (js "Release v0.2.0") /\
  cargo (d_repo d) = Some (ex_manifest "0.2.0" "1.0.1") /\
  chlog (d_repo d) = Some (js "# Changelog

All notable changes to this project will be documented in this file.

<!-- changelog-insert-here -->


## [0.2.0] - 2026-11-17

### Added
- costs $5

### Fixed
- y

## [0.1.0-pre+beta.15] - Initial Release

### Added
- Initial implementation of doublets library
") /\ notes (js "0.2.0") (chlog (d_repo d)) = paragraphs ex_ts.
Proof.
  destruct ex_gathered as (ND & W & G). destruct ex_version as (V & P & _). eexists _, _, _, _, (0, 1, 9), _.
  split; [apply asks_minor|]. split; [exact V|].
  split; [exact P|].
  split; [repeat split|]. split; [vm_compute; reflexivity|]. split; [exact ND|]. split; [exact W|]. split; [exact G|].
  split; [exact (dotted_plain 0 2 0)|].
  split; [intros b y; change (js "## [" ++ js "0.2.0" ++ js "]" ++ y) with (js "## [0.2.0]" ++ y); apply cut_none; vm_compute; reflexivity|].
  split; [apply headless_of; vm_compute; reflexivity|]. split; [destruct G as (_ & _ & F); eapply tidy_paragraphs; exact F|].
  split; [vm_compute; reflexivity|]. split; [vm_compute; reflexivity|]. split; vm_compute; reflexivity.
Qed.
(** Fragments are collected once (changelog.d/README.md: processed fragment files are removed). They are not removed:
    the next release has them again. *)
Lemma L_C93_once_refuted :
  let d := ex_run ex_git (js "minor") ex_repo in let d' := ex_run ex_git (js "patch") (d_repo d) in
  In (js "version_committed", js "true") (d_out d) /\ In (js "version_committed", js "true") (d_out d') /\
  entries (d_repo d) = entries ex_repo /\ entries (d_repo d') = entries ex_repo /\
  notes (js "0.2.0") (chlog (d_repo d)) = paragraphs ex_ts /\ notes (js "0.2.1") (chlog (d_repo d')) = paragraphs ex_ts /\ paragraphs ex_ts <> [].
Proof. split; [vm_compute; auto|]. split; [vm_compute; auto|]. repeat (split; [vm_compute; reflexivity|]). discriminate. Qed.
(** The notes of a release tell its changes. Not where collect-changelog.mjs was run first, as in the job
    manual-release (.github/workflows/ci.yml:369-398): the changes are those of the version before. *)
Lemma L_C93_manual_refuted :
  let t := fst (collect (js "2026-11-17") ex_repo) in let d := ex_run ex_git (js "minor") t in
  In (js "version_committed", js "true") (d_out d) /\ In (js "new_version", js "0.2.0") (d_out d) /\
  notes (js "0.2.0") (chlog (d_repo d)) = js "Release v0.2.0" /\ notes (js "0.1.9") (chlog (d_repo d)) = paragraphs ex_ts /\ paragraphs ex_ts <> [].
Proof. split; [vm_compute; auto|]. split; [vm_compute; auto|]. repeat (split; [vm_compute; reflexivity|]). discriminate. Qed.
(** A release that fails leaves the files as they were. They stay changed, and the next attempt skips a version. *)
Lemma L_C93_failed_refuted :
  let d := ex_run ex_offline (js "patch") ex_repo in
  d_end d = Exit1 /\ cargo (d_repo d) = Some (ex_manifest "0.1.10" "1.0.1") /\
  cargo (d_repo (ex_run ex_git (js "patch") (d_repo d))) = Some (ex_manifest "0.1.11" "1.0.1").
Proof. repeat (split; [vm_compute; reflexivity|]). vm_compute; reflexivity. Qed.
(** a case with a fragment that cannot be read *)
Lemma L_C93_unreadable_nonvacuous : exists n, fragment_name n /\
  let l := ex_frags ++ [(n, None)] in let d := ex_run ex_git (js "patch") (Repo (cargo ex_repo) (chlog ex_repo) (Some l)) in
  In (n, None) l /\ map fst (rev (d_cmds d)) = [Config_name; Config_mail; Rev_parse (js "v0.1.10")] /\
  d_repo d = Repo (Some (ex_manifest "0.1.10" "1.0.1")) (chlog ex_repo) (Some l) /\ d_end d = Exit1.
Proof.
  exists (js "locked.md"). split; [split; [exists (js "locked"); reflexivity|discriminate]|]. cbv zeta.
  split; [apply in_or_app; right; now left|]. repeat (split; [vm_compute; reflexivity|]). vm_compute; reflexivity.
Qed.
(** In the repository, where the file has no version, no release is made. *)
Lemma L_C93_workspace git arg desc date log es : let t := Repo (Some ex_workspace) log es in let d := version_and_commit git arg desc date t in
  d_repo d = t /\ d_out d = [] /\ d_end d = Exit1 /\ (length (d_cmds d) <= 2)%nat.
Proof.
  apply failed. vm_compute. reflexivity.
Qed.

(** ** The sizes of files: specification *)
(** the path of an entry of a directory *)
Definition under (dir x p : str) : Prop :=
  ((exists d, dir = d ++ js "/") /\ p = dir ++ x) \/ (~ (exists d, dir = d ++ js "/") /\ p = dir ++ js "/" ++ x).
(** paths that are left out *)
Definition banned (p : str) : Prop := exists w a b, In w [js "target"; js ".git"; js "node_modules"] /\ p = a ++ w ++ b.
(** what is reached from the entries of a directory *)
Inductive reached : str -> list node -> str -> node -> Prop :=
| reached_here dir ns n p : In n ns -> under dir (name_of n) p -> ~ banned p -> reached dir ns p n
| reached_in dir ns x inside q p n : In (Dir x (Some inside)) ns -> under dir x q -> ~ banned q -> reached q inside p n -> reached dir ns p n.
(** Rust files *)
Definition rust (x : str) : Prop := exists m, m <> [] /\ x = m ++ js ".rs".
(** the number of line feeds *)
Definition feeds (s : str) : nat := count_occ N.eq_dec s 10.
(** what is in order: directories that can be read, Rust files that can be read and have less than 1000 line feeds *)
Definition fine (n : node) : Prop :=
  match n with
  | File x t => rust x -> exists s, t = Some s /\ (feeds s < 1000)%nat
  | Dir _ inside => inside <> None
  | Other _ => True
  end.

(** ** Proofs *)
Lemma ends_dec dir : ends_with (js "/") dir = true <-> exists d, dir = d ++ js "/".
Proof. apply ends_with_spec. Qed.
Lemma under_path dir x p : under dir x p <-> p = path dir x.
Proof.
  unfold under, path. pose proof (ends_dec dir) as H. destruct (ends_with (js "/") dir).
  - assert (Y : exists d, dir = d ++ js "/") by (now apply H). split; [intros [[_ E]|[NY _]]; [exact E|contradiction]|]. left. auto.
  - assert (Y : ~ exists d, dir = d ++ js "/") by (intros Z; apply H in Z; discriminate). split; [intros [[Z _]|[_ E]]; [contradiction|exact E]|]. right. auto.
Qed.
Lemma includes_spec l s : includes l s = true <-> exists a b, s = a ++ l ++ b.
Proof.
  unfold includes. split.
  - destruct (cut l s) as [[a b]|] eqn:E; [|discriminate]. intros _. exists a, b. now apply cut_some in E as [E _].
  - intros (a & b & E). destruct (cut l s) eqn:C; auto. exfalso. now apply (cut_none _ _ C a b).
Qed.
Lemma excluded_spec p : excluded p = true <-> banned p.
Proof.
  unfold excluded, banned. rewrite !orb_true_iff, !includes_spec. split.
  - intros [[(a & b & E)|(a & b & E)]|(a & b & E)]; [exists (js "target")|exists (js ".git")|exists (js "node_modules")]; exists a, b; split; auto; cbn [In]; auto.
  - intros (w & a & b & [<-|[<-|[<-|[]]]] & E); eauto.
Qed.
Lemma rust_spec x : rust_name x = true <-> rust x.
Proof.
  unfold rust_name, rust. rewrite andb_true_iff, ends_with_spec, Nat.ltb_lt. split.
  - intros [[m ->] L]. exists m. split; auto. intros ->. cbn in L. lia.
  - intros (m & NE & ->). split; [now exists m|]. rewrite app_length. destruct m; [contradiction|]. cbn [length js]. cbn. lia.
Qed.
Lemma feeds_lines s : length (lines s) = S (feeds s).
Proof.
  induction s as [|c s IH]; [reflexivity|]. unfold feeds in *. cbn [lines count_occ]. destruct (N.eq_dec c 10) as [->|NE].
  - change (10 =? 10) with true. cbn [length]. now rewrite IH.
  - rewrite (proj2 (N.eqb_neq c 10) NE). destruct (lines s); cbn [length] in *; lia.
Qed.
Lemma node_all (P : node -> Prop) : (forall x t, P (File x t)) -> (forall x, P (Other x)) -> (forall x, P (Dir x None)) ->
  (forall x ns, Forall P ns -> P (Dir x (Some ns))) -> forall n, P n.
Proof.
  intros HF HO HN HD. fix IH 1. intros [x t|x [ns|]|x]; [apply HF| |apply HN|apply HO].
  apply HD. induction ns as [|n ns IHn]; constructor; [apply IH|exact IHn].
Qed.
Definition all_walk (dir : str) (ns : list node) :=
  fold_right (fun m r => match walk dir m, r with Some a, Some b => Some (a ++ b) | _, _ => None end) (Some []) ns.
Definition small (l : option (list (str * option str))) : Prop :=
  exists fs, l = Some fs /\ forall p t, In (p, t) fs -> exists s, t = Some s /\ (feeds s < 1000)%nat.
Lemma small_all dir ns : small (all_walk dir ns) <-> Forall (fun n => small (walk dir n)) ns.
Proof.
  induction ns as [|n ns IH].
  - split; [constructor|]. intros _. exists []. split; [reflexivity|]. intros p t [].
  - cbn [all_walk fold_right]. fold (all_walk dir ns). split.
    + intros (fs & E & H). destruct (walk dir n) as [a|] eqn:EW; [|discriminate]. destruct (all_walk dir ns) as [b|]; [|discriminate]. injection E as <-.
      constructor; [exists a; split; auto; intros p t I; apply (H p); apply in_or_app; auto|].
      apply IH. exists b. split; auto. intros p t I. apply (H p). apply in_or_app. auto.
    + intros F. inversion F as [|? ? (a & EA & HA) F']; subst. apply IH in F' as (b & EB & HB). rewrite EA, EB. exists (a ++ b). split; auto.
      intros p t I. apply in_app_or in I as [I|I]; [eapply HA|eapply HB]; eauto.
Qed.
Lemma reached_one dir ns p m : reached dir ns p m <-> exists n, In n ns /\ reached dir [n] p m.
Proof.
  split.
  - intros R. inversion R as [d0 ns0 n0 p0 I U NB|d0 ns0 x0 ins q p0 n0 I U NB R']; subst; eexists; (split; [exact I|]).
    + apply reached_here; auto; now left.
    + eapply reached_in; eauto; now left.
  - intros (n & I & R). inversion R as [d0 ns0 n0 p0 I' U NB|d0 ns0 x0 ins q p0 n0 I' U NB R']; subst; destruct I' as [E|[]]; rewrite E in I.
    + now apply reached_here.
    + eapply reached_in; eauto.
Qed.
Lemma small_walk n : forall dir, small (walk dir n) <-> forall p m, reached dir [n] p m -> fine m.
Proof.
  induction n as [x t|x|x|x ns IH] using node_all; intros dir.
  all: pose proof (excluded_spec (path dir x)) as EX; cbn [walk name_of]; destruct (excluded (path dir x)) eqn:EB.
  all: try (split; [|intros _; exists []; split; [reflexivity|intros p t' []]]; intros _ p m R;
            inversion R as [d0 ns0 n0 p0 I U NB|d0 ns0 x0 ins q p0 n0 I U NB R']; subst; destruct I as [I|[]]; try discriminate I;
            try (injection I as <- <-); try subst m; apply under_path in U; cbn [name_of] in U; subst; exfalso; apply NB; now apply EX).
  - split.
    + intros (fs & E & H) p m R. inversion R as [d0 ns0 n0 p0 I U NB|d0 ns0 x0 ins q p0 n0 I U NB R']; subst; destruct I as [I|[]]; [|discriminate]. subst m.
      intros RS. apply rust_spec in RS. rewrite RS in E. injection E as <-. apply (H (path dir x)). now left.
    + intros H. eexists. split; [reflexivity|]. intros p t' I. destruct (rust_name x) eqn:RN; [|destruct I].
      destruct I as [I|[]]. injection I as <- <-. apply (H (path dir x) (File x t)); [|now apply rust_spec].
      apply reached_here; [now left|now apply under_path|]. intros B. apply EX in B. congruence.
  - split; [|intros _; exists []; split; [reflexivity|intros p t' []]]. intros _ p m R.
    inversion R as [d0 ns0 n0 p0 I U NB|d0 ns0 x0 ins q p0 n0 I U NB R']; subst; destruct I as [I|[]]; [|discriminate]. now subst m.
  - split.
    + intros (fs & E & _). discriminate.
    + intros H. exfalso. assert (R : reached dir [Dir x None] (path dir x) (Dir x None)).
      { apply reached_here; [now left|now apply under_path|]. intros B. apply EX in B. congruence. }
      apply H in R. now apply R.
  - change (small (all_walk (path dir x) ns) <-> forall p m, reached dir [Dir x (Some ns)] p m -> fine m). rewrite small_all.
    assert (NB : ~ banned (path dir x)) by (intros B; apply EX in B; congruence). split.
    + intros F p m R. inversion R as [d0 ns0 n0 p0 I U NB'|d0 ns0 x0 ins q p0 n0 I U NB' R']; subst; destruct I as [I|[]]; [subst m; discriminate|].
      injection I as <- <-. apply under_path in U. subst q. clear R NB'. rewrite Forall_forall in IH, F.
      apply reached_one in R' as X.
      destruct X as (n & I & R). apply (proj1 (IH n I (path dir x)) (F n I) p m R).
    + intros H. rewrite Forall_forall in *. intros n I. apply (IH n I). intros p m R. apply (H p m).
      eapply reached_in; [now left|now apply under_path|exact NB|].
      apply reached_one. eauto.
Qed.
Lemma violations_spec fs : violations fs = Some [] <-> small (Some fs).
Proof.
  assert (K : small (Some fs) <-> forall p t, In (p, t) fs -> exists s, t = Some s /\ (feeds s < 1000)%nat).
  { split; [intros (fs' & E & H); now injection E as ->|]. intros H. now exists fs. }
  rewrite K. clear K. induction fs as [|[p [s|]] fs IH].
  - split; auto. intros _ p t [].
  - assert (C : (1000 <? count_lines s) = false <-> (feeds s < 1000)%nat).
    { unfold count_lines. rewrite feeds_lines, N.ltb_ge. lia. }
    cbn [violations]. split.
    + destruct (violations fs) as [r|]; [|discriminate]. destruct (1000 <? count_lines s) eqn:E; [discriminate|]. intros X. injection X as ->.
      intros q t [I|I]; [injection I as <- <-; exists s; split; auto; now apply C|]. now apply (proj1 IH eq_refl q).
    + intros H. rewrite (proj2 IH) by (intros q t I; apply (H q); now right).
      destruct (H p (Some s) (or_introl eq_refl)) as (s' & E & L). injection E as <-. now rewrite (proj2 C L).
  - split; [discriminate|]. intros H. destruct (H p None (or_introl eq_refl)) as (s & E & _). discriminate.
Qed.

(** ** C94 *)
Lemma L_C94_sizes cwd ns : check_sizes cwd (Some ns) = Exit0 <-> forall p n, reached cwd ns p n -> fine n.
Proof.
  assert (A : check_sizes cwd (Some ns) = Exit0 <-> small (all_walk cwd ns)).
  { unfold check_sizes, rust_files. fold (all_walk cwd ns). destruct (all_walk cwd ns) as [fs|].
    - rewrite <- violations_spec. destruct (violations fs) as [[|v r]|]; split; auto; discriminate.
    - split; [discriminate|]. intros (fs & E & _). discriminate. }
  rewrite A, small_all, Forall_forall. split.
  - intros F p n R.
    apply reached_one in R as X.
    destruct X as (m & I & R'). exact (proj1 (small_walk m cwd) (F m I) p n R').
  - intros H m I. apply small_walk. intros p n R. apply (H p n).
    apply reached_one. eauto.
Qed.
Lemma L_C94_ends cwd ns : check_sizes cwd ns = Exit0 \/ check_sizes cwd ns = Exit1.
Proof. unfold check_sizes. destruct ns as [ns|]; auto. destruct (rust_files cwd ns) as [fs|]; auto. destruct (violations fs) as [[|]|]; auto. Qed.
(** a directory whose own path is left out: nothing is checked *)
Lemma L_C94_outside cwd ns : banned cwd -> check_sizes cwd (Some ns) = Exit0.
Proof.
  intros (w & a & b & I & ->). apply L_C94_sizes. intros p n R. exfalso.
  assert (E : forall x q, under (a ++ w ++ b) x q -> banned q).
  { intros x q [[_ ->]|[_ ->]]; exists w, a; [exists (b ++ x)|exists (b ++ js "/" ++ x)]; split; auto; now rewrite <- !app_assoc. }
  inversion R as [d0 ns0 n0 p0 I' U NB'|d0 ns0 x0 ins q p0 n0 I' U NB' R'']; subst; apply NB'; eapply E; eauto.
Qed.

(** ** Cases *)
Definition ex_lines (n : nat) : str := List.concat (repeat (js "x
") n).
Definition ex_tree (name : string) (n : nat) : list node :=
  [File (js "Cargo.toml") None; Dir (js ".git") None; Dir (js "doublets") (Some [Dir (js "src") (Some [File (js name) (Some (ex_lines n)); File (js "lib.rs") (Some (js "mod a;"))])])].
Lemma L_C94_nonvacuous : check_sizes (js "/w") (Some (ex_tree "a.rs" 999)) = Exit0 /\ check_sizes (js "/w") (Some (ex_tree "a.rs" 2000)) = Exit1 /\
  reached (js "/w") (ex_tree "a.rs" 2000) (js "/w/doublets/src/a.rs") (File (js "a.rs") (Some (ex_lines 2000))) /\
  ~ fine (File (js "a.rs") (Some (ex_lines 2000))).
Proof.
  split; [vm_compute; reflexivity|]. split; [vm_compute; reflexivity|]. split.
  - assert (NB : forall p, excluded p = false -> ~ banned p) by (intros p E B; apply excluded_spec in B; congruence).
    eapply reached_in; [right; right; left; reflexivity|apply under_path; reflexivity|apply NB; vm_compute; reflexivity|].
    eapply reached_in; [left; reflexivity|apply under_path; reflexivity|apply NB; vm_compute; reflexivity|].
    apply reached_here; [left; reflexivity|apply under_path; reflexivity|apply NB; vm_compute; reflexivity].
  - intros F. destruct F as (s & E & L); [exists (js "a"); split; [discriminate|reflexivity]|]. injection E as <-. vm_compute in L. lia.
Qed.
(** Files of 1000 lines pass. Not if the last line is ended, as it is in every file rustfmt writes. *)
Lemma L_C94_thousand_refuted : feeds (ex_lines 1000) = 1000%nat /\ ex_lines 1000 = ex_lines 999 ++ js "x
" /\ check_sizes (js "/w") (Some (ex_tree "a.rs" 1000)) = Exit1.
Proof. split; [vm_compute; reflexivity|]. split; vm_compute; reflexivity. Qed.
(** Every Rust file outside of the build and git directories is checked. Not those with target in their names, such as
    doublets/src/mem/unit/generic/targets_recursionless_size_balanced_tree.rs. *)
Lemma L_C94_named_refuted : check_sizes (js "/w") (Some (ex_tree "targets_recursionless_size_balanced_tree.rs" 2000)) = Exit0.
Proof. vm_compute. reflexivity. Qed.
