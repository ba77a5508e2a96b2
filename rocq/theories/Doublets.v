(** Model of the default methods of the [Doublets] trait and of [DoubletsExt],
    doublets/src/data/traits.rs:37-552 and 599-698, and of [Fuse],
    doublets/src/data/handler.rs, over an arbitrary [Links] implementation.

    A user handler returns [R: Try<Output = ()>]; here it returns [None] for an output
    (continue) and [Some r] for a residual (break with r). *)
From Coq Require Import NArith List Bool.
From Verif Require Import Base Iface.
Import ListNotations.
Open Scope N_scope.

Definition uread (H B : Type) := H -> link -> H * option B.
Definition uwrite (H B : Type) := H -> link -> link -> H * option B.

(** The closures passed to create_links/update_links/delete_links: traits.rs:64-74,
    149-161, 210-221. *)
Definition wadapt {H B} (h : uwrite H B) : whandler (H * option B) :=
  fun '(x, o) b a =>
    match h x b a with
    | (x', None) => ((x', o), Continue)
    | (x', Some r) => ((x', Some r), Break)
    end.
(** The closure passed to each_links: traits.rs:115-121. *)
Definition radapt {H B} (h : uread H B) : rhandler (H * option B) :=
  fun '(x, o) l =>
    match h x l with
    | (x', None) => ((x', o), Continue)
    | (x', Some r) => ((x', Some r), Break)
    end.

(** Fuse::call_mut, handler.rs:77-93.  Line 86 stores [false]. *)
Definition fuse_call {H B} (h : uwrite H B) : uwrite (H * bool) unit :=
  fun '(x, done) b a =>
    if done then ((x, done), Some tt)
    else match h x b a with
         | (x', Some _) => ((x', false), Some tt)
         | (x', None) => ((x', done), None)
         end.

(** Fuse::call_once, handler.rs:66-74: the state of the fuse is not asked. *)
Definition fuse_once {H B} (h : uwrite H B) (x : H) (b a : link) : H * flow :=
  match h x b a with
  | (x', Some _) => (x', Break)
  | (x', None) => (x', Continue)
  end.

Definition rmap {A B} (f : A -> B) (r : result A) : result B :=
  match r with Ok a => Ok (f a) | Err e => Err e end.

Definition flow_of {B} (o : option B) : flow := match o with None => Continue | Some _ => Break end.

Section Doublets.
  Context {S : Type}.
  Variable cf : cfg.
  Variable I : LinksI S.

  (** count_by, count: traits.rs:38-50 *)
  Definition d_count_by (st : S) (q : list N) : out N := li_count I st q.
  Definition d_count (st : S) : out N := d_count_by st [].

  (** create_by_with: traits.rs:52-75 *)
  Definition d_create_by_with {H B} (h : uwrite H B) (q : list N) (st : S) (x : H)
    : out (S * H * result (option B)) :=
    let* (st', (x', o), r) := li_create I _ (wadapt h) q st (x, None) in
    Val (st', x', rmap (fun _ => o) r).

  (** create_by, create: traits.rs:77-103 *)
  Definition d_create_by (q : list N) (st : S) : out (S * result N) :=
    let* (st', i, r) := d_create_by_with (B := unit) (fun _ _ l => (l_index l, None)) q st 0 in
    Val (st', rmap (fun _ => i) r).
  Definition d_create_with {H B} (h : uwrite H B) (st : S) (x : H) := d_create_by_with h [] st x.
  Definition d_create (st : S) : out (S * result N) := d_create_by [] st.

  (** each_by, each: traits.rs:105-133 *)
  Definition d_each_by {H B} (h : uread H B) (q : list N) (st : S) (x : H) : out (H * option B) :=
    let* ((x', o), _) := li_each I _ (radapt h) q st (x, None) in Val (x', o).
  Definition d_each {H B} (h : uread H B) (st : S) (x : H) := d_each_by h [] st x.

  (** update_by_with: traits.rs:135-162 *)
  Definition d_update_by_with {H B} (h : uwrite H B) (q ch : list N) (st : S) (x : H)
    : out (S * H * result (option B)) :=
    let* (st', (x', o), r) := li_update I _ (wadapt h) q ch st (x, None) in
    Val (st', x', rmap (fun _ => o) r).
  (** update_by: traits.rs:164-174 *)
  Definition d_update_by (q ch : list N) (st : S) : out (S * result N) :=
    let* (st', i, r) := d_update_by_with (B := unit) (fun _ _ l => (l_index l, None)) q ch st 0 in
    Val (st', rmap (fun _ => i) r).
  (** update_with, update: traits.rs:176-196 *)
  Definition d_update_with {H B} (h : uwrite H B) (i s t : N) (st : S) (x : H) :=
    d_update_by_with h [i] [i; s; t] st x.
  Definition d_update (i s t : N) (st : S) : out (S * result N) := d_update_by [i] [i; s; t] st.

  (** delete_by_with: traits.rs:198-222 *)
  Definition d_delete_by_with {H B} (h : uwrite H B) (q : list N) (st : S) (x : H)
    : out (S * H * result (option B)) :=
    let* (st', (x', o), r) := li_delete I _ (wadapt h) q st (x, None) in
    Val (st', x', rmap (fun _ => o) r).
  (** delete_by: traits.rs:224-234; it returns [after.index] *)
  Definition d_delete_by (q : list N) (st : S) : out (S * result N) :=
    let* (st', i, r) := d_delete_by_with (B := unit) (fun _ _ l => (l_index l, None)) q st 0 in
    Val (st', rmap (fun _ => i) r).
  (** delete_with, delete: traits.rs:236-250 *)
  Definition d_delete_with {H B} (h : uwrite H B) (i : N) (st : S) (x : H) :=
    d_delete_by_with h [i] st x.
  Definition d_delete (i : N) (st : S) : out (S * result N) := d_delete_by [i] st.

  (** try_get_link: traits.rs:252-254 *)
  Definition d_try_get_link (st : S) (i : N) : out (result link) :=
    let* o := li_get I st i in
    Val (match o with Some l => Ok l | None => Err (NotExists i) end).

  (** delete_all: traits.rs:258-269 *)
  Fixpoint d_delete_all (fuel : nat) (st : S) : out (S * result unit) :=
    match fuel with
    | O => Diverge
    | Datatypes.S f =>
        let* c := d_count st in
        if c =? 0 then Val (st, Ok tt)
        else
          let* (st', r) := d_delete c st in
          match r with
          | Err e => Val (st', Err e)
          | Ok _ => d_delete_all f st'
          end
    end.

  (** The closure that pushes visited links on a [Vec], and the iterators
      each_iter/iter: traits.rs:652-670 (also par_each_iter, each_iter_small) *)
  Definition d_each_iter (st : S) (q : list N) : out (list link) :=
    let* _ := d_count_by st q in
    let* (v, _) := d_each_by (B := unit) (fun v l => (v ++ [l], None)) q st [] in
    Val v.
  Definition d_iter (st : S) : out (list link) := d_each_iter st [c_any cf; c_any cf; c_any cf].

  (** The loop [for index in vec.into_iter().rev() { self.delete_with(index, &mut handler)?; }] *)
  Fixpoint d_delete_list {H B} (h : uwrite H B) (l : list N) (st : S) (x : H)
    : out (S * H * result unit) :=
    match l with
    | [] => Val (st, x, Ok tt)
    | i :: l' =>
        let* (st', x', r) := d_delete_with h i st x in
        match r with
        | Err e => Val (st', x', Err e)
        | Ok _ => d_delete_list h l' st' x'
        end
    end.

  (** delete_query_with: traits.rs:271-295 *)
  Definition d_delete_query_with {H B} (h : uwrite H B) (q : list N) (st : S) (x : H)
    : out (S * H * result unit) :=
    let* _ := d_count_by st q in
    let* (v, _) := d_each_by (B := unit) (fun v l => (v ++ [l_index l], None)) q st [] in
    let* (st', (x', _), r) := d_delete_list (fuse_call h) (rev v) st (x, false) in
    Val (st', x', r).

  (** delete_usages_with, delete_usages: traits.rs:297-334 *)
  Definition d_delete_usages_with {H B} (h : uwrite H B) (i : N) (st : S) (x : H)
    : out (S * H * result unit) :=
    let any := c_any cf in
    let push := fun (v : list N) l =>
      (if negb (l_index l =? i) then v ++ [l_index l] else v, @None unit) in
    let* _ := d_count_by st [any; i; any] in
    let* _ := d_count_by st [any; any; i] in
    let* (v1, _) := d_each_by push [any; i; any] st [] in
    let* (v2, _) := d_each_by push [any; any; i] st v1 in
    let* (st', (x', _), r) := d_delete_list (fuse_call h) (rev v2) st (x, false) in
    Val (st', x', r).
  Definition d_delete_usages (i : N) (st : S) : out (S * result unit) :=
    let* (st', _, r) := d_delete_usages_with (B := unit) (fun (x : unit) _ _ => (x, None)) i st tt in
    Val (st', r).

  (** create_point: traits.rs:336-342 *)
  Definition d_create_point (st : S) : out (S * result N) :=
    let* (st1, r) := d_create st in
    match r with
    | Err e => Val (st1, Err e)
    | Ok new => d_update new new new st1
    end.

  (** create_link_with: traits.rs:344-359 *)
  Definition d_create_link_with {H B} (h : uwrite H B) (s t : N) (st : S) (x : H)
    : out (S * H * result flow) :=
    let fh := fuse_call h in
    let* (st1, (new, hs), r) :=
      d_create_with (B := unit)
        (fun '(_, hs) b a => ((l_index a, fst (fh hs b a)), None)) st (0, (x, false)) in
    match r with
    | Err e => Val (st1, fst hs, Err e)
    | Ok _ =>
        let* (st2, hs2, r2) := d_update_with fh new s t st1 hs in
        Val (st2, fst hs2, rmap flow_of r2)
    end.
  (** create_link: traits.rs:361-371 *)
  Definition d_create_link (s t : N) (st : S) : out (S * result N) :=
    let* (st', i, r) := d_create_link_with (B := unit) (fun _ _ l => (l_index l, None)) s t st 0 in
    Val (st', rmap (fun _ => i) r).

  (** found, find, search, single: traits.rs:373-423 *)
  Definition d_found (st : S) (q : list N) : out bool :=
    let* c := d_count_by st q in Val (negb (c =? 0)).
  Definition d_find (st : S) (q : list N) : out (option link) :=
    let* (r, _) := d_each_by (fun _ l => (Some l, Some tt)) q st None in Val r.
  Definition d_search (st : S) (s t : N) : out (option N) :=
    let* o := d_find st [c_any cf; s; t] in Val (option_map l_index o).
  (** search_or: traits.rs:400-405 *)
  Definition d_search_or (st : S) (s t default : N) : out N :=
    let* o := d_search st s t in Val (match o with Some i => i | None => default end).
  Definition d_single (st : S) (q : list N) : out (option link) :=
    let* (r, _) := d_each_by (fun r l =>
        match r with None => (Some l, None) | Some _ => (None, Some tt) end) q st None in
    Val r.

  (** get_or_create: traits.rs:425-434 *)
  Definition d_get_or_create (s t : N) (st : S) : out (S * result N) :=
    let* o := d_search st s t in
    match o with
    | Some i => Val (st, Ok i)
    | None => d_create_link s t st
    end.

  (** count_usages: traits.rs:436-455 *)
  Definition d_count_usages (st : S) (i : N) : out (result N) :=
    let any := c_any cf in
    let* r := d_try_get_link st i in
    match r with
    | Err e => Val (Err e)
    | Ok l =>
        let* us0 := d_count_by st [any; i; any] in
        let* us := (if i =? l_source l then csub us0 1 else Val us0) in
        let* ut0 := d_count_by st [any; any; i] in
        let* ut := (if i =? l_target l then csub ut0 1 else Val ut0) in
        let* n := cadd (c_tmax cf) us ut in
        Val (Ok n)
    end.

  (** usages: traits.rs:457-478 *)
  Definition d_usages (st : S) (i : N) : out (result (list N)) :=
    let any := c_any cf in
    let push := fun (v : list N) l =>
      (if negb (l_index l =? i) then v ++ [l_index l] else v, @None unit) in
    let* r := d_count_usages st i in
    match r with
    | Err e => Val (Err e)
    | Ok _ =>
        let* (v1, _) := d_each_by push [any; i; any] st [] in
        let* (v2, _) := d_each_by push [any; any; i] st v1 in
        Val (Ok v2)
    end.

  (** exist: traits.rs:480-490 *)
  Definition d_exist (st : S) (i : N) : out bool :=
    if is_external cf i then Val true
    else if is_internal cf i then d_found st [i] else Val false.

  (** has_usages: traits.rs:492-498 *)
  Definition d_has_usages (st : S) (i : N) : out bool :=
    let* r := d_count_usages st i in
    Val (match r with Ok n => negb (n =? 0) | Err _ => false end).

  (** rebase_with: traits.rs:500-531.  Both iterators are collected before the first
      update. *)
  Fixpoint d_rebase_list {H B} (h : uwrite H B) (old new : N) (l : list link) (st : S) (x : H)
    : out (S * H * result unit) :=
    match l with
    | [] => Val (st, x, Ok tt)
    | u :: l' =>
        let* (st1, x1, r1) :=
          (if l_source u =? old then d_update_with h (l_index u) new (l_target u) st x
           else Val (st, x, Ok None)) in
        match r1 with
        | Err e => Val (st1, x1, Err e)
        | Ok _ =>
            let* (st2, x2, r2) :=
              (if l_target u =? old then d_update_with h (l_index u) (l_source u) new st1 x1
               else Val (st1, x1, Ok None)) in
            match r2 with
            | Err e => Val (st2, x2, Err e)
            | Ok _ => d_rebase_list h old new l' st2 x2
            end
        end
    end.
  Definition d_rebase_with {H B} (h : uwrite H B) (old new : N) (st : S) (x : H)
    : out (S * H * result unit) :=
    let any := c_any cf in
    let* g := d_try_get_link st old in
    match g with
    | Err e => Val (st, x, Err e)
    | Ok _ =>
        if old =? new then Val (st, x, Ok tt)
        else
          let* l1 := d_each_iter st [any; old; any] in
          let* l2 := d_each_iter st [any; any; old] in
          let us := filter (fun u => negb (l_index u =? old)) (l1 ++ l2) in
          let* (st', (x', _), r) := d_rebase_list (fuse_call h) old new us st (x, false) in
          Val (st', x', r)
    end.
  (** rebase, rebase_and_delete: traits.rs:533-551 *)
  Definition d_rebase (old new : N) (st : S) : out (S * result N) :=
    let* (st', _, r) := d_rebase_with (B := unit) (fun (x : unit) _ _ => (x, None)) old new st tt in
    Val (st', rmap (fun _ => new) r).
  Definition d_rebase_and_delete (old new : N) (st : S) : out (S * result N) :=
    if old =? new then Val (st, Ok new)
    else
      let* (st1, r) := d_rebase old new st in
      match r with
      | Err e => Val (st1, Err e)
      | Ok _ => d_delete old st1
      end.
End Doublets.
