(** Model of the C interface, doublets-ffi/src/lib.rs, over an arbitrary store.

    Logging ([error!], [warn!]) is left out.  Foreign callbacks are functions that thread
    the caller's state and return an address.  File opening, path decoding and the loggers
    (lines 173-178, 410-452) are not modelled, except as an arbitrary success or failure. *)
From Coq Require Import NArith List Bool.
From Verif Require Import Base Iface Doublets.
Import ListNotations.
Open Scope N_scope.

(** Links and Doublets for Box<All>, doublets/src/data/traits.rs:554-597: every required method
    is forwarded; the default methods are those of the traits. *)
Definition boxed {S} (I : LinksI S) : LinksI S :=
  mkLinksI S
    (fun st q => li_count I st q)
    (fun H h q st x => li_create I H h q st x)
    (fun H h q st x => li_each I H h q st x)
    (fun H h q ch st x => li_update I H h q ch st x)
    (fun H h q st x => li_delete I H h q st x)
    (fun st i => li_get I st i).

(** data::LinksConstants (external crate): the fields read at lib.rs:96-115. *)
Record lconst := mkLC {
  lc_index_part : N; lc_source_part : N; lc_target_part : N; lc_null : N;
  lc_continue : N; lc_break : N; lc_skip : N; lc_any : N; lc_itself : N; lc_error : N;
  lc_internal : N * N; lc_external : option (N * N)
}.
(** Constants, lib.rs:77-92 *)
Record cconst := mkCC {
  cc_index_part : N; cc_source_part : N; cc_target_part : N; cc_null : N;
  cc_continue : N; cc_break : N; cc_skip : N; cc_any : N; cc_itself : N; cc_error : N;
  cc_internal : N * N; cc_external : N * N; cc_marker : bool
}.
(** From<LinksConstants> for Constants, lib.rs:94-118 *)
Definition to_c (c : lconst) : cconst :=
  mkCC (lc_index_part c) (lc_source_part c) (lc_target_part c) (lc_null c)
    (lc_continue c) (lc_break c) (lc_skip c) (lc_any c) (lc_itself c) (lc_error c)
    (fst (lc_internal c), snd (lc_internal c))
    (match lc_external c with None => (0, 0) | Some r => (fst r, snd r) end)
    (match lc_external c with Some _ => true | None => false end).
(** Into<LinksConstants> for Constants, lib.rs:120-145 *)
Definition from_c (c : cconst) : lconst :=
  mkLC (cc_index_part c) (cc_source_part c) (cc_target_part c) (cc_null c)
    (cc_continue c) (cc_break c) (cc_skip c) (cc_any c) (cc_itself c) (cc_error c)
    (fst (cc_internal c), snd (cc_internal c))
    (if cc_marker c then Some (fst (cc_external c), snd (cc_external c)) else None).

(** query_from_raw, lib.rs:40-52.  A pointer is null or gives access to some memory;
    reading past it is undefined behaviour. *)
Definition query_from_raw (p : option (list N)) (len : nat) : out (list N) :=
  match p with
  | None => Val []
  | Some m => if Nat.leb len (length m) then Val (firstn len m) else UB
  end.

Section Ffi.
  Context {S : Type}.
  Variable fc : lconst.
  Variable I : LinksI S.

  (** result_into_log, lib.rs:33-38 *)
  Definition or_error (r : result N) : N := match r with Ok v => v | Err _ => lc_error fc end.
  (** lib.rs:243-249, 359-365, 399-405 *)
  Definition flow_const {B} (o : option B) : N :=
    match o with None => lc_continue fc | Some _ => lc_break fc end.

  Definition ccallback (H : Type) := H -> link -> link -> H * N.
  Definition ecallback (H : Type) := H -> link -> H * N.

  (** create_united, lib.rs:222-252.  Line 234: the comparison selects [Break]. *)
  Definition f_create {H} (cb : ccallback H) (p : option (list N)) (len : nat) (st : S) (x : H) : out (S * H * N) :=
    let* q := query_from_raw p len in
    let h : uwrite H unit := fun x b a =>
      let '(x', v) := cb x b a in (x', if v =? lc_continue fc then Some tt else None) in
    let* (st', x', r) := d_create_by_with I h q st x in
    Val (st', x', or_error (rmap flow_const r)).

  (** smart_create_united, smart_update_united: lib.rs:262-280 *)
  Definition f_smart_create (st : S) : out (S * N) :=
    let* (st', r) := d_create I st in Val (st', or_error r).
  Definition f_smart_update (i s t : N) (st : S) : out (S * N) :=
    let* (st', r) := d_update I i s t st in Val (st', or_error r).

  (** each_united, lib.rs:290-311 *)
  Definition f_each {H} (cb : ecallback H) (p : option (list N)) (len : nat) (st : S) (x : H) : out (H * N) :=
    let* q := query_from_raw p len in
    let h : uread H unit := fun x l =>
      let '(x', v) := cb x l in (x', if v =? lc_continue fc then None else Some tt) in
    let* (x', o) := d_each_by I h q st x in
    Val (x', flow_const o).

  (** count_united, lib.rs:321-325 *)
  Definition f_count (p : option (list N)) (len : nat) (st : S) : out N :=
    let* q := query_from_raw p len in d_count_by I st q.

  (** update_united, lib.rs:335-368 *)
  Definition f_update {H} (cb : ccallback H) (p : option (list N)) (lr : nat) (p' : option (list N)) (ls : nat)
      (st : S) (x : H) : out (S * H * N) :=
    let* q := query_from_raw p lr in
    let* ch := query_from_raw p' ls in
    let h : uwrite H unit := fun x b a =>
      let '(x', v) := cb x b a in (x', if v =? lc_continue fc then None else Some tt) in
    let* (st', x', r) := d_update_by_with I h q ch st x in
    Val (st', x', or_error (rmap flow_const r)).

  (** delete_united, lib.rs:378-408.  Line 390: compared with [break_]. *)
  Definition f_delete {H} (cb : ccallback H) (p : option (list N)) (len : nat) (st : S) (x : H) : out (S * H * N) :=
    let* q := query_from_raw p len in
    let h : uwrite H unit := fun x b a =>
      let '(x', v) := cb x b a in (x', if v =? lc_break fc then Some tt else None) in
    let* (st', x', r) := d_delete_by_with I h q st x in
    Val (st', x', or_error (rmap flow_const r)).
End Ffi.

(** ** Handles

    The heap seen by the C interface: what lives at an address.  [HStore] is a
    [unit::Store] value itself, [HBox p] a [Box<dyn Doublets<T>>] value (a fat pointer to
    the store at [p]).  Reinterpreting one as the other is undefined behaviour. *)
Inductive hobj (S : Type) : Type :=
| HStore (st : S)
| HBox (p : N).
Arguments HStore {S} st. Arguments HBox {S} p.
Definition heap (S : Type) := N -> option (hobj S).

(** new_with_constants_united_links, lib.rs:167-186: the store is boxed at a fresh address
    [p]; line 181 returns the address of the store (not of a box). [st] is None when
    opening fails, and then null is returned. *)
Definition f_new {S} (hp : heap S) (p : N) (st : option S) : heap S * N :=
  match st with
  | None => (hp, 0)
  | Some s => (upd hp p (Some (HStore s)), p)
  end.

(** unnull_or_error at type WrappedLinks<T>, lib.rs:54-62, followed by the use of the
    dereferenced box: the address of the store behind it. *)
Definition f_deref {S} (hp : heap S) (p : N) : out (N * S) :=
  if p =? 0 then Panic
  else match hp p with
       | Some (HBox q) => match hp q with Some (HStore s) => Val (q, s) | _ => UB end
       | _ => UB
       end.

(** The exported functions on a handle: dereference, then work on the store. *)
Definition on_handle {S A} (hp : heap S) (p : N) (f : S -> out (S * A)) : out (heap S * A) :=
  let* (q, s) := f_deref hp p in
  let* (s', a) := f s in
  Val (upd hp q (Some (HStore s')), a).
Definition read_handle {S A} (hp : heap S) (p : N) (f : S -> out A) : out A :=
  let* (_, s) := f_deref hp p in f s.

(** drop_united_links, lib.rs:194-197: [drop_in_place] runs the destructor of the box, which
    drops the store behind it and frees its memory.  The memory of the box itself is not
    freed, so a dangling [HBox] stays at the handle. *)
Definition f_drop {S} (hp : heap S) (p : N) : out (heap S) :=
  let* (q, _) := f_deref hp p in Val (upd hp q None).

(** get_constants_united_links, lib.rs:207-210.  The constants never change after opening
    (store.rs has no setter), so they are a parameter here. *)
Definition f_get_constants {S} (fc : lconst) (hp : heap S) (p : N) : out cconst :=
  read_handle hp p (fun _ => Val (to_c fc)).
