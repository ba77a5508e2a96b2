(** The kind of the next version from the fragments (C90). *)
From Coq Require Import Ascii String NArith List Bool Lia Permutation Sorted.
From Verif Require Import ReleaseNotes JsText Release ReleaseVersion.
Import ListNotations.
Open Scope N_scope.

Theorem C90_highest :
  forall def t l,
  entries t = Some l -> readable l ->
  exists b s fs rest, parted l fs rest /\ reads s (N.of_nat (length fs)) /\
  get_bump_type def t = (bump_outputs b s (match fs with [] => false | _ => true end), Exit0) /\
  ((b = def /\ forall n c x r, In (n, Some c) l -> fragment_name n -> fragment c (Some x) -> ~ rank x r) \/
   (exists r, rank b r /\ (exists n c, In (n, Some c) l /\ fragment_name n /\ fragment c (Some b)) /\
    forall n c x r', In (n, Some c) l -> fragment_name n -> fragment c (Some x) -> rank x r' -> r' <= r)).
Proof. exact L_C90_highest. Qed.
Print Assumptions C90_highest.

(** The characters of the patterns: white space, ends of lines, and those of words. *)
Theorem C90_characters :
  forall c,
  (space c = true <-> In c [9; 10; 11; 12; 13; 32; 160; 5760; 8192; 8193; 8194; 8195; 8196; 8197; 8198; 8199; 8200; 8201; 8202; 8232; 8233; 8239; 8287; 12288; 65279]) /\
  (line_end c = true <-> In c [10; 13; 8232; 8233]) /\
  (word c = true <-> In c (js "0123456789ABCDEFGHIJKLMNOPQRSTUVWXYZ_abcdefghijklmnopqrstuvwxyz")) /\
  (digit c = true <-> In c (js "0123456789")).
Proof. exact L_C90_characters. Qed.
Print Assumptions C90_characters.

Theorem C90_no_directory :
  forall def t,
  entries t = None -> get_bump_type def t = (bump_outputs def (js "0") false, Exit0).
Proof. exact L_C90_no_directory. Qed.
Print Assumptions C90_no_directory.

Theorem C90_unreadable :
  forall def t l n,
  entries t = Some l -> In (n, None) l -> fragment_name n -> get_bump_type def t = ([], Exit1).
Proof. exact L_C90_unreadable. Qed.
Print Assumptions C90_unreadable.

Theorem C90_order :
  forall def c c' log log' l l',
  Permutation l l' -> NoDup (map fst l) ->
  get_bump_type def (Repo c log (Some l)) = get_bump_type def (Repo c' log' (Some l')).
Proof. exact L_C90_order. Qed.
Print Assumptions C90_order.

Theorem C90_default_patch :
  forall t l,
  entries t = Some l -> readable l ->
  exists b r s any, get_bump_type (js "patch") t = (bump_outputs b s any, Exit0) /\ rank b r /\
  (forall n c r', In (n, Some c) l -> fragment_name n -> counts c r' -> r' <= r) /\
  ((exists n c, In (n, Some c) l /\ fragment_name n /\ counts c r) \/ (r = 1 /\ forall n o, In (n, o) l -> ~ fragment_name n)).
Proof. exact L_C90_default_patch. Qed.
Print Assumptions C90_default_patch.

Theorem C90_nonvacuous :
  readable ex_entries /\
  get_bump_type (js "patch") (Repo None None (Some ex_entries)) = (bump_outputs (js "minor") (js "3") true, Exit0) /\
  (exists c, In (js "1_a.md", Some c) ex_entries /\ fragment c (Some (js "minor")) /\ counts c 2).
Proof. exact L_C90_nonvacuous. Qed.
Print Assumptions C90_nonvacuous.

(** With another default, a fragment without a kind does not count for it beside one with a kind. *)
Theorem C90_default_refuted :
  exists l, readable l /\ (exists n c, In (n, Some c) l /\ fragment_name n /\ fragment c None) /\
  get_bump_type (js "major") (Repo None None (Some l)) = (bump_outputs (js "patch") (js "2") true, Exit0).
Proof. exact L_C90_default_refuted. Qed.
Print Assumptions C90_default_refuted.

(** Values in quotes are not understood, front matter after an empty line is not found. *)
Theorem C90_spelling_refuted :
  (forall c, In c [ex_front "bump: ""major""" "x"; js "
" ++ ex_front "bump: major" "x"; ex_front "bump: major # breaking" "x"; ex_front "bump: Major" "x"] ->
  get_bump_type (js "patch") (Repo None None (Some [(js "a.md", Some c)])) = (bump_outputs (js "patch") (js "1") true, Exit0)) /\
  get_bump_type (js "patch") (Repo None None (Some [(js "a.md", Some (ex_front "bump: major" "x"))])) =
  (bump_outputs (js "major") (js "1") true, Exit0).
Proof. exact L_C90_spelling_refuted. Qed.
Print Assumptions C90_spelling_refuted.
