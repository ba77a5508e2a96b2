(** C65: the texts of links, pairs and errors are unambiguous. *)
From Coq Require Import NArith List Bool Ascii String DecimalString DecimalN DecimalFacts.
From Verif Require Import Display Base.
Import ListNotations.
Open Scope string_scope.

(** * C65 *)
Theorem C65_links :
  forall l k,
  show_link l = show_link k -> l = k.
Proof. exact L_C65_links. Qed.
Print Assumptions C65_links.

Theorem C65_doublets :
  forall s t s' t',
  show_doublet s t = show_doublet s' t' -> s = s' /\ t = t'.
Proof. exact L_C65_doublets. Qed.
Print Assumptions C65_doublets.

(** Different errors print differently. *)
Theorem C65_errors :
  forall e f,
  show_error e = show_error f -> e = f.
Proof. exact L_C65_errors. Qed.
Print Assumptions C65_errors.

Theorem C65_nonvacuous :
  show_link (mkLink 10 2 300) = "10: 2 300" /\ show_doublet 12 0 = "12->0" /\
  show_error (SHasUsages [mkLink 1 2 3; mkLink 4 5 6]) = "link [1: 2 3, 4: 5 6] has dependencies" /\
  show_error (SAlreadyExists 1 2) = "link 1->2 already exists" /\ show_error (SNotExists 1) = "link 1 does not exist.".
Proof. exact L_C65_nonvacuous. Qed.
Print Assumptions C65_nonvacuous.
