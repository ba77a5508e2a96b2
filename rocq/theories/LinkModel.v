(** Model of [Link], doublets/src/data/link.rs. *)
From Coq Require Import NArith List Bool.
From Verif Require Import Base.
Import ListNotations.
Open Scope N_scope.

(** link.rs:20-34 *)
Definition link_point (v : N) : link := mkLink v v v.

(** from_slice_unchecked, link.rs:44-51: any other length is [unreachable_unchecked] *)
Definition link_from_slice_unchecked (l : list N) : out link :=
  match l with
  | [i; s; t] => Val (mkLink i s t)
  | _ => UB
  end.
(** from_slice, link.rs:36-42 *)
Definition link_from_slice (l : list N) : out link :=
  if Nat.leb 3 (length l) then link_from_slice_unchecked l else Panic.

(** derived [PartialEq], link.rs:5 *)
Definition link_eqb (k l : link) : bool :=
  (l_index k =? l_index l) && (l_source k =? l_source l) && (l_target k =? l_target l).
(** link.rs:53-69 *)
Definition link_is_null (l : link) : bool := link_eqb l (link_point 0).
Definition link_is_full (l : link) : bool := (l_index l =? l_source l) && (l_index l =? l_target l).
Definition link_is_partial (l : link) : bool := (l_index l =? l_source l) || (l_index l =? l_target l).

(** as_slice, link.rs:71-76, and [to_query], link.rs:85-89: [repr(C)] puts the fields in
    declaration order *)
Definition link_as_slice (l : link) : list N := [l_index l; l_source l; l_target l].
