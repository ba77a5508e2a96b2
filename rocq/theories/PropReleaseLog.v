(** Fragments into the changelog, and the notes of a release (C91, C92). *)
From Coq Require Import Ascii String NArith List Bool Lia Permutation Sorted.
From Verif Require Import ReleaseLog JsText Release ReleaseVersion ReleaseNotes.
Import ListNotations.
Open Scope N_scope.

Theorem C91_collect :
  forall date pre v post log l,
  version_at pre v post -> NoDup (map fst l) ->
  (forall n o, In (n, o) l -> fragment_name n -> exists c x, o = Some c /\ worded c x) ->
  let t := Repo (Some (pre ++ v ++ post)) log (Some l) in
  exists fs rest ts, gathered l fs rest ts /\
  (paragraphs ts = [] -> collect date t = (t, Exit0)) /\
  (paragraphs ts <> [] -> quiet (section v date (paragraphs ts)) ->
   exists log', placed (section v date (paragraphs ts)) log log' /\ collect date t = (Repo (Some (pre ++ v ++ post)) (Some log') (Some rest), Exit0)).
Proof. exact L_C91_collect. Qed.
Print Assumptions C91_collect.

Theorem C91_order :
  forall date c log l l',
  Permutation l l' -> NoDup (map fst l) ->
  (forall t' e, collect date (Repo c log (Some l)) = (t', e) -> exists es, collect date (Repo c log (Some l')) = (Repo (cargo t') (chlog t') es, e)).
Proof. exact L_C91_order. Qed.
Print Assumptions C91_order.

(** what is not done: nothing is touched *)
Theorem C91_refuses :
  forall date t,
  cargo t = None \/ (exists f, cargo t = Some f /\ forall b s, f = b ++ s -> line_start b -> ~ assigns s) \/ (exists l n, entries t = Some l /\ In (n, None) l /\ fragment_name n) -> collect date t = (t, Exit1).
Proof. exact L_C91_refuses. Qed.
Print Assumptions C91_refuses.

Theorem C91_no_directory :
  forall date pre v post log,
  version_at pre v post ->
  collect date (Repo (Some (pre ++ v ++ post)) log None) = (Repo (Some (pre ++ v ++ post)) log None, Exit0).
Proof. exact L_C91_no_directory. Qed.
Print Assumptions C91_no_directory.

(** ** C92: the notes of a release are its fragments *)
Theorem C92_section :
  forall v date body b a,
  ~ In 10 v -> one_line date -> headless body -> tidy body -> body <> [] -> then_heading a -> no_mention v (b ++ nl) ->
  notes v (Some (b ++ section v date body ++ a)) = body.
Proof. exact L_C92_section. Qed.
Print Assumptions C92_section.

Theorem C92_collected :
  forall date pre v post log l,
  version_at pre v post -> NoDup (map fst l) ->
  (forall n o, In (n, o) l -> fragment_name n -> exists c x, o = Some c /\ worded c x) ->
  ~ In 10 v -> one_line date ->
  (forall old, log = Some old -> no_mention v old /\
    forall b a, old = b ++ place_mark ++ a -> (forall b1 y, old = b1 ++ place_mark ++ y -> (length b <= length b1)%nat) -> then_heading a) ->
  exists fs rest ts, gathered l fs rest ts /\
  (paragraphs ts <> [] -> headless (paragraphs ts) -> quiet (section v date (paragraphs ts)) ->
   exists t', collect date (Repo (Some (pre ++ v ++ post)) log (Some l)) = (t', Exit0) /\ notes v (chlog t') = paragraphs ts).
Proof. exact L_C92_collected. Qed.
Print Assumptions C92_collected.

Theorem C92_none :
  forall v log,
  (log = None \/ exists old, log = Some old /\ no_mention v old) -> notes v log = js "Release v" ++ v.
Proof. exact L_C92_none. Qed.
Print Assumptions C92_none.

Theorem C91_nonvacuous :
  exists pre post fs rest, version_at pre (js "0.1.9") post /\ ex_repo = Repo (Some (pre ++ js "0.1.9" ++ post)) (Some ex_log) (Some ex_frags) /\
  NoDup (map fst ex_frags) /\ gathered ex_frags fs rest ex_ts /\ length fs = 2%nat /\ paragraphs ex_ts <> [] /\
  quiet (section (js "0.1.9") (js "2026-11-17") (paragraphs ex_ts)) /\
  collect (js "2026-11-17") ex_repo = (Repo (Some (ex_manifest "0.1.9" "1.0.1")) (Some (js "# Changelog

All notable changes to this project will be documented in this file.

<!-- changelog-insert-here -->
## [0.1.9] - 2026-11-17

### Added
- costs $5

### Fixed
- y


## [0.1.0-pre+beta.15] - Initial Release

### Added
- Initial implementation of doublets library
")) (Some rest), Exit0).
Proof. exact L_C91_nonvacuous. Qed.
Print Assumptions C91_nonvacuous.

Theorem C92_nonvacuous :
  (exists pre post, version_at pre (js "0.1.9") post /\ ex_manifest "0.1.9" "1.0.1" = pre ++ js "0.1.9" ++ post) /\
  NoDup (map fst ex_frags) /\ (forall n o, In (n, o) ex_frags -> fragment_name n -> exists c x, o = Some c /\ worded c x) /\
  one_line (js "2026-11-17") /\ no_mention (js "0.1.9") ex_log /\
  (forall b a, ex_log = b ++ place_mark ++ a -> (forall b1 y, ex_log = b1 ++ place_mark ++ y -> (length b <= length b1)%nat) -> then_heading a) /\
  headless (paragraphs ex_ts) /\ paragraphs ex_ts <> [] /\
  notes (js "0.1.9") (chlog (fst (collect (js "2026-11-17") ex_repo))) = paragraphs ex_ts.
Proof. exact L_C92_nonvacuous. Qed.
Print Assumptions C92_nonvacuous.

(** Dollar signs in a fragment are taken for patterns of replace where the mark is found. *)
Theorem C91_dollar_refuted :
  exists old new x, worded x x /\
  collect (js "2026-11-17") (Repo (Some (ex_manifest "0.1.9" "1.0.1")) (Some old) (Some [(js "a.md", Some x)])) =
  (Repo (Some (ex_manifest "0.1.9" "1.0.1")) (Some new) (Some []), Exit0) /\
  old = js "<!-- changelog-insert-here -->" /\ x = js "- `$&` and $$" /\ new = js "<!-- changelog-insert-here -->
## [0.1.9] - 2026-11-17

- `<!-- changelog-insert-here -->` and $
" /\ ~ placed (section (js "0.1.9") (js "2026-11-17") x) (Some old) new.
Proof. exact L_C91_dollar_refuted. Qed.
Print Assumptions C91_dollar_refuted.

(** A line in a fragment that begins as a heading ends the notes. *)
Theorem C92_heading_refuted :
  exists x, worded x x /\ ~ headless x /\
  notes (js "0.1.9") (chlog (fst (collect (js "2026-11-17") (Repo (Some (ex_manifest "0.1.9" "1.0.1")) (Some ex_log) (Some [(js "a.md", Some x)]))))) = js "- one" /\
  x = js "- one
## [links] are renamed".
Proof. exact L_C92_heading_refuted. Qed.
Print Assumptions C92_heading_refuted.
