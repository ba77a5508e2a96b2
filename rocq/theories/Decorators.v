(** Model of the decorators, doublets-decorators/src/*.rs.

    Each decorator wraps a store and overrides one or two operations; the others are passed
    on unchanged.  The crate is written against an earlier version of the trait, in which
    [create_by_with], [each_by], ... are the required methods; here it is modelled over the
    present interface, with the default methods of Doublets.v for the calls the decorators
    make on the wrapped store.  [get_link] is passed on.  An operation applied by [?] to a
    [Result<R, Error>] drops the verdict [R] of the handler. *)
From Coq Require Import NArith List Bool.
From Verif Require Import Base Iface Doublets.
Import ListNotations.
Open Scope N_scope.

(** A handler passed on to a default method of the wrapped store ([&mut handler]). *)
Definition uw_of {H} (h : whandler H) : uwrite H unit :=
  fun x b a => let '(x', f) := h x b a in (x', match f with Continue => None | Break => Some tt end).

(** [m?] followed by [k]. *)
Definition then_ok {S H A B} (m : out (S * H * result A)) (k : S -> H -> out (S * H * result B))
  : out (S * H * result B) :=
  let* (st, x, r) := m in
  match r with Err e => Val (st, x, Err e) | Ok _ => k st x end.

Definition to_flow {S H B} (m : out (S * H * result (option B))) : out (S * H * result flow) :=
  let* (st, x, r) := m in Val (st, x, rmap flow_of r).

Section Decorators.
  Context {S : Type}.
  Variable cf : cfg.
  Variable I : LinksI S.

  (** unique_validator.rs:25-77 *)
  Definition unique_validator : LinksI S :=
    mkLinksI S (li_count I) (li_create I) (li_each I)
      (fun H h q ch st x =>
         let* s := qget ch 1 in
         let* t := qget ch 2 in
         let* f := d_found I st [c_any cf; s; t] in
         if f then Val (st, x, Err (AlreadyExists s t))
         else li_update I H h q ch st x)
      (li_delete I) (li_get I).

  (** unique_resolver.rs:25-83 *)
  Definition unique_resolver : LinksI S :=
    mkLinksI S (li_count I) (li_create I) (li_each I)
      (fun H h q ch st x =>
         let* new := qget q 0 in
         let* s := qget ch 1 in
         let* t := qget ch 2 in
         let* o := d_search cf I st s t in
         match o with
         | Some old =>
             then_ok (d_delete_with I (uw_of h) new st x)
               (fun st x => to_flow (d_update_with I (uw_of h) old s t st x))
         | None => to_flow (d_update_with I (uw_of h) new s t st x)
         end)
      (li_delete I) (li_get I).

  (** [usages.into_iter().map(|index| links.try_get_link(index)).collect()],
      usages_validator.rs:67-70, 87-90 *)
  Fixpoint get_all (st : S) (l : list N) : out (result (list link)) :=
    match l with
    | [] => Val (Ok [])
    | i :: l' =>
        let* r := d_try_get_link I st i in
        match r with
        | Err e => Val (Err e)
        | Ok k => let* rs := get_all st l' in Val (rmap (cons k) rs)
        end
    end.

  (** usages_validator.rs:60-72 and 80-92: [index_part] is 0 *)
  Definition if_unused {H A} (q : list N) (st : S) (x : H) (k : out (S * H * result A))
    : out (S * H * result A) :=
    let* i := qget q (c_index_part cf) in
    let* r := d_usages cf I st i in
    match r with
    | Err e => Val (st, x, Err e)
    | Ok [] => k
    | Ok us =>
        let* rs := get_all st us in
        Val (st, x, match rs with Err e => Err e | Ok ls => Err (HasUsages ls) end)
    end.

  (** usages_validator.rs:25-94 *)
  Definition usages_validator : LinksI S :=
    mkLinksI S (li_count I) (li_create I) (li_each I)
      (fun H h q ch st x => if_unused q st x (li_update I H h q ch st x))
      (fun H h q st x => if_unused q st x (li_delete I H h q st x))
      (li_get I).

  (** non_null_deletion_resolver.rs:25-78; the constant [null] is c_null *)
  Definition non_null_deletion_resolver : LinksI S :=
    mkLinksI S (li_count I) (li_create I) (li_each I) (li_update I)
      (fun H h q st x =>
         let* i := qget q 0 in
         then_ok (d_update_by_with I (uw_of h) q [i; c_null cf; c_null cf] st x)
           (fun st x => li_delete I H h q st x))
      (li_get I).

  (** cascade_usages_resolver.rs:25-76 *)
  Definition cascade_usages_resolver : LinksI S :=
    mkLinksI S (li_count I) (li_create I) (li_each I) (li_update I)
      (fun H h q st x =>
         let* i := qget q 0 in
         then_ok (d_delete_usages_with cf I (uw_of h) i st x)
           (fun st x => li_delete I H h q st x))
      (li_get I).

  (** cascade_unique_resolver.rs:29-88 *)
  Definition cascade_unique_resolver : LinksI S :=
    mkLinksI S (li_count I) (li_create I) (li_each I)
      (fun H h q ch st x =>
         let* new := qget q 0 in
         let* s := qget ch 1 in
         let* t := qget ch 2 in
         let* o := d_search cf I st s t in
         match o with
         | Some old =>
             then_ok (d_rebase_with cf I (uw_of h) new old st x)
               (fun st x => then_ok (d_delete_with I (uw_of h) new st x)
                  (fun st x => to_flow (d_update_with I (uw_of h) old s t st x)))
         | None => to_flow (d_update_with I (uw_of h) new s t st x)
         end)
      (li_delete I) (li_get I).
End Decorators.
