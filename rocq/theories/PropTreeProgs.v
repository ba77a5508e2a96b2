(** Programs over the methods that compute the tree operations (C75). *)
From Coq Require Import NArith List Bool Lia Permutation Sorted.
From Verif Require Import TreeProgs Base Trees TreeImpl UnitModel Accessors.
Import ListNotations.
Open Scope N_scope.

(** On every search tree, plain insertion and removal through the methods are the operations the
    models are run with; so the hypothesis of the steps above can be met in every state. *)
Theorem C75_realised :
  forall klen len k c root t x fuel,
  trep c root t -> NoDup (elems t) -> wsorted k (elems t) -> (forall y, In y (elems t) -> y < len /\ y < klen) ->
  x <> 0 -> x < len -> x < klen -> (height t < fuel)%nat ->
  (~ In x (elems t) -> c x = nd0 -> exists c' r' c2, t_attach ref_tree_ops k c root x = Val (c', r') /\
     on_tree klen len k (insert_at fuel Root x) c root = Val (tt, c2, r') /\ forall i, c2 i = c' i) /\
  (In x (elems t) -> key_alone k x (elems t) -> exists c' r' c2, t_detach ref_tree_ops k c root x = Val (c', r') /\
     on_tree klen len k (remove_at fuel Root x) c root = Val (tt, c2, r') /\ forall i, c2 i = c' i).
Proof. exact L_C75_realised. Qed.
Print Assumptions C75_realised.
