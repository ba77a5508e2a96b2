(** Handlers that panic.

    The handlers of the other files return.  Here a handler may also panic; the panic
    unwinds through the calls of the store to whoever catches it, and the store is left as
    it was when the handler was called.  The modifying calls of both stores, the methods
    with a handler of the [Doublets] trait and the decorators are written again for such
    handlers, after the same lines of the sources; no value with a destructor that touches
    the store is alive while a handler runs, so unwinding itself changes nothing. *)
From Coq Require Import NArith List Bool Lia.
From Verif Require Import Base Trees Lists TreeImpl Spec Iface Doublets DoubletsOK Decorators UnitModel UnitLinks UnitHist SplitModel SplitLinks
  Obs Hist Claims UnitClaims DefaultClaims SplitHist SplitClaims SplitWrites SplitDefaults HandlerClaims.
Import ListNotations.
Open Scope N_scope.

(** ** Model *)
(** A handler answers with a verdict, or panics ([None]). *)
Definition panicky (H V : Type) := H -> link -> link -> H * option V.
(** A call returns, or the panic of a handler passes through it. *)
Inductive ends (A : Type) := Returns (r : result A) | Unwinds.
Arguments Returns {A}. Arguments Unwinds {A}.
Definition pcall (S : Type) := forall H, panicky H flow -> H -> out (S * H * ends flow).

(** [Ok(handler(before, after))], the last expression of the modifying calls of both
    stores: unit/store.rs:459-462, 516-519, 553; split/store.rs:730-733, 809, 845-848. *)
Definition last_call {S H} (h : panicky H flow) (x : H) (b a : link) (st : S) : out (S * H * ends flow) :=
  let (x', o) := h x b a in
  Val (st, x', match o with Some f => Returns (Ok f) | None => Unwinds end).

Section UnitP.
  Variable cf : cfg.
  Variable tops : tree_ops.
  Variable lops : list_ops.

  (** create_links, unit/store.rs:429-463 *)
  Definition u_create_p {H} (h : panicky H flow) (q : list N) (st : ust) (x : H) : out (ust * H * ends flow) :=
    let* _ := u_header st in
    let free := h_first st in
    if free =? c_null cf then
      let max_inner := c_iend cf in
      if max_inner <=? h_alloc st then Val (st, x, Returns (Err (LimitReached max_inner)))
      else
        let* (st1, g) := u_grow cf st in
        match g with
        | Err e => Val (st1, x, Returns (Err e))
        | Ok _ =>
            let* a := cadd (c_tmax cf) (h_alloc st1) 1 in
            last_call h x nothing (mkLink a 0 0) (set_alloc st1 a)
        end
    else
      let* st1 := u_unused_detach lops st free in
      last_call h x nothing (mkLink free 0 0) st1.

  (** update_links, unit/store.rs:469-520 *)
  Definition u_update_p {H} (h : panicky H flow) (q ch : list N) (st : ust) (x : H) : out (ust * H * ends flow) :=
    let* index := qget q 0 in
    let* source := qget ch 1 in
    let* target := qget ch 2 in
    let* o := u_get_link cf st index in
    match o with
    | None => Val (st, x, Returns (Err (NotExists index)))
    | Some lk =>
        let* st1 := u_relink tops st index (l_source lk) (l_target lk) source target in
        last_call h x (mkLink index source target) (mkLink index source target) st1
    end.

  (** delete_links, unit/store.rs:522-555; the closure given to the inner update does not
      panic *)
  Definition u_delete_p {H} (h : panicky H flow) (q : list N) (st : ust) (x : H) : out (ust * H * ends flow) :=
    let* index := qget q 0 in
    let* o := u_get_link cf st index in
    match o with
    | None => Val (st, x, Returns (Err (NotExists index)))
    | Some lk =>
        let* (st1, _, r) := u_update cf tops (fun (u : unit) _ _ => (u, Continue)) [index] [index; 0; 0] st tt in
        match r with
        | Err e => Val (st1, x, Returns (Err e))
        | Ok _ =>
            let* _ := u_header st1 in
            let* st3 :=
              match index ?= h_alloc st1 with
              | Lt => u_unused_attach lops st1 index
              | Eq =>
                  let* a1 := csub (h_alloc st1) 1 in
                  u_trim lops (u_fuel st1) (set_alloc st1 a1)
              | Gt => Panic
              end in
            last_call h x lk nothing st3
        end
    end.
End UnitP.

Section SplitP.
  Variable cf : cfg.
  Variable tops : tree_ops.
  Variable lops : list_ops.

  (** create_links, split/store.rs:691-734 *)
  Definition s_create_p {H} (h : panicky H flow) (q : list N) (st : sst) (x : H) : out (sst * H * ends flow) :=
    let* _ := s_header st in
    let free := sh_first st in
    if free =? c_null cf then
      let max_inner := c_iend cf in
      if max_inner <=? sh_alloc st then Val (st, x, Returns (Err (LimitReached max_inner)))
      else
        let* (st1, g) := s_grow cf st in
        match g with
        | Err e => Val (st1, x, Returns (Err e))
        | Ok _ =>
            let* a := cadd (c_tmax cf) (sh_alloc st1) 1 in
            let* st2 := s_resolve_external cf tops (s_set_alloc st1 a) a in
            last_call h x nothing (mkLink a 0 0) st2
        end
    else
      let* st1 := s_unused_detach lops st free in
      let* st2 := s_resolve_external cf tops st1 free in
      last_call h x nothing (mkLink free 0 0) st2.

  (** update_links, split/store.rs:740-810 *)
  Definition s_update_p {H} (h : panicky H flow) (q ch : list N) (st : sst) (x : H) : out (sst * H * ends flow) :=
    let* index := qget q 0 in
    let* new_source := qget ch 1 in
    let* new_target := qget ch 2 in
    let* o := s_get_link cf st index in
    match o with
    | None => Val (st, x, Returns (Err (NotExists index)))
    | Some lk =>
        let* st1 := s_relink tops st index (l_source lk) (l_target lk) new_source new_target in
        last_call h x lk (mkLink index new_source new_target) st1
    end.

  (** delete_links, split/store.rs:812-849 *)
  Definition s_delete_p {H} (h : panicky H flow) (q : list N) (st : sst) (x : H) : out (sst * H * ends flow) :=
    let* index := qget q 0 in
    let* o := s_get_link cf st index in
    match o with
    | None => Val (st, x, Returns (Err (NotExists index)))
    | Some lk =>
        let* st0 := s_resolve_internal cf tops st index in
        let* (st1, _, r) := s_update cf tops (fun (u : unit) _ _ => (u, Continue)) [index] [index; 0; 0] st0 tt in
        match r with
        | Err e => Val (st1, x, Returns (Err e))
        | Ok _ =>
            let* _ := s_header st1 in
            let* st3 :=
              match index ?= sh_alloc st1 with
              | Lt => s_unused_attach lops st1 index
              | Eq =>
                  let* a1 := csub (sh_alloc st1) 1 in
                  s_trim lops (s_fuel st1) (s_set_alloc st1 a1)
              | Gt => Panic
              end in
            last_call h x (mkLink index (l_source lk) (l_target lk)) nothing st3
        end
    end.
End SplitP.

(** A store with both kinds of handlers. *)
Record LinksP (S : Type) := mkLinksP {
  lp_links : LinksI S;
  lp_create : forall H, panicky H flow -> list N -> S -> H -> out (S * H * ends flow);
  lp_update : forall H, panicky H flow -> list N -> list N -> S -> H -> out (S * H * ends flow);
  lp_delete : forall H, panicky H flow -> list N -> S -> H -> out (S * H * ends flow)
}.
Arguments lp_links {S}. Arguments lp_create {S}. Arguments lp_update {S}. Arguments lp_delete {S}.
Definition unit_panics cf tops lops : LinksP ust :=
  mkLinksP ust (unit_links cf tops lops) (fun H => u_create_p cf lops) (fun H => u_update_p cf tops) (fun H => u_delete_p cf tops lops).
Definition split_panics cf tops lops : LinksP sst :=
  mkLinksP sst (split_links cf tops lops) (fun H => s_create_p cf tops lops) (fun H => s_update_p cf tops) (fun H => s_delete_p cf tops lops).

Definition emap {A B} (f : A -> B) (r : ends A) : ends B :=
  match r with Returns r => Returns (rmap f r) | Unwinds => Unwinds end.
(** [m?] followed by [k]; a panic is not caught. *)
Definition then_p {S H A B} (m : out (S * H * ends A)) (k : S -> H -> out (S * H * ends B)) : out (S * H * ends B) :=
  let* (st, x, r) := m in
  match r with
  | Unwinds => Val (st, x, Unwinds)
  | Returns (Err e) => Val (st, x, Returns (Err e))
  | Returns (Ok _) => k st x
  end.
(** The closures of traits.rs:64-74, 149-161, 210-221. *)
Definition wadapt_p {H B} (h : panicky H (option B)) : panicky (H * option B) flow :=
  fun '(x, o) b a =>
    match h x b a with
    | (x', None) => ((x', o), None)
    | (x', Some None) => ((x', o), Some Continue)
    | (x', Some (Some r)) => ((x', Some r), Some Break)
    end.
(** Fuse::call_mut, handler.rs:77-93 *)
Definition fuse_p {H B} (h : panicky H (option B)) : panicky (H * bool) (option unit) :=
  fun '(x, done) b a =>
    if done then ((x, done), Some (Some tt))
    else match h x b a with
         | (x', None) => ((x', done), None)
         | (x', Some (Some _)) => ((x', false), Some (Some tt))
         | (x', Some None) => ((x', done), Some None)
         end.
(** [&mut handler] given to a method of the wrapped store *)
Definition pw_of {H} (h : panicky H flow) : panicky H (option unit) :=
  fun x b a => let '(x', f) := h x b a in
    (x', match f with None => None | Some Continue => Some None | Some Break => Some (Some tt) end).

Section DoubletsP.
  Context {S : Type}.
  Variable cf : cfg.
  Variable P : LinksP S.
  Notation I := (lp_links P).

  (** create_by_with, update_by_with, delete_by_with: traits.rs:52-75, 135-162, 198-222 *)
  Definition p_create_by_with {H B} (h : panicky H (option B)) (q : list N) (st : S) (x : H) : out (S * H * ends (option B)) :=
    let* (st', (x', o), r) := lp_create P _ (wadapt_p h) q st (x, None) in Val (st', x', emap (fun _ => o) r).
  Definition p_update_by_with {H B} (h : panicky H (option B)) (q ch : list N) (st : S) (x : H) : out (S * H * ends (option B)) :=
    let* (st', (x', o), r) := lp_update P _ (wadapt_p h) q ch st (x, None) in Val (st', x', emap (fun _ => o) r).
  Definition p_delete_by_with {H B} (h : panicky H (option B)) (q : list N) (st : S) (x : H) : out (S * H * ends (option B)) :=
    let* (st', (x', o), r) := lp_delete P _ (wadapt_p h) q st (x, None) in Val (st', x', emap (fun _ => o) r).
  (** create_with, update_with, delete_with: traits.rs:90-97, 176-189, 236-243 *)
  Definition p_create_with {H B} (h : panicky H (option B)) (st : S) (x : H) := p_create_by_with h [] st x.
  Definition p_update_with {H B} (h : panicky H (option B)) (i s t : N) (st : S) (x : H) := p_update_by_with h [i] [i; s; t] st x.
  Definition p_delete_with {H B} (h : panicky H (option B)) (i : N) (st : S) (x : H) := p_delete_by_with h [i] st x.

  (** the loop of delete_query_with and delete_usages_with: traits.rs:290-293, 322-325 *)
  Fixpoint p_delete_list {H B} (h : panicky H (option B)) (l : list N) (st : S) (x : H) : out (S * H * ends unit) :=
    match l with
    | [] => Val (st, x, Returns (Ok tt))
    | i :: l' => then_p (p_delete_with h i st x) (fun st x => p_delete_list h l' st x)
    end.
  (** a loop run with [Fuse::new(handler)] *)
  Definition fused_p {H B A} (h : panicky H (option B)) (x : H)
    (f : panicky (H * bool) (option unit) -> H * bool -> out (S * (H * bool) * ends A)) : out (S * H * ends A) :=
    let* (st', (x', _), r) := f (fuse_p h) (x, false) in Val (st', x', r).

  (** delete_query_with: traits.rs:271-295 *)
  Definition p_delete_query_with {H B} (h : panicky H (option B)) (q : list N) (st : S) (x : H) : out (S * H * ends unit) :=
    let* _ := d_count_by I st q in
    let* (v, _) := d_each_by I (B := unit) (fun v l => (v ++ [l_index l], None)) q st [] in
    fused_p h x (fun h x => p_delete_list h (rev v) st x).

  (** delete_usages_with: traits.rs:297-327 *)
  Definition p_delete_usages_with {H B} (h : panicky H (option B)) (i : N) (st : S) (x : H) : out (S * H * ends unit) :=
    let any := c_any cf in
    let push := fun (v : list N) l =>
      (if negb (l_index l =? i) then v ++ [l_index l] else v, @None unit) in
    let* _ := d_count_by I st [any; i; any] in
    let* _ := d_count_by I st [any; any; i] in
    let* (v1, _) := d_each_by I push [any; i; any] st [] in
    let* (v2, _) := d_each_by I push [any; any; i] st v1 in
    fused_p h x (fun h x => p_delete_list h (rev v2) st x).

  (** create_link_with: traits.rs:344-359; [new] is set before the handler is called *)
  Definition p_create_link_with {H B} (h : panicky H (option B)) (s t : N) (st : S) (x : H) : out (S * H * ends flow) :=
    let fh := fuse_p h in
    let* (st1, (new, hs), r) :=
      p_create_with (B := unit)
        (fun '(_, hs) b a => let (hs', o) := fh hs b a in ((l_index a, hs'), option_map (fun _ => None) o)) st (0, (x, false)) in
    match r with
    | Unwinds => Val (st1, fst hs, Unwinds)
    | Returns (Err e) => Val (st1, fst hs, Returns (Err e))
    | Returns (Ok _) =>
        let* (st2, hs2, r2) := p_update_with fh new s t st1 hs in
        Val (st2, fst hs2, emap flow_of r2)
    end.

  (** rebase_with: traits.rs:500-531 *)
  Fixpoint p_rebase_list {H B} (h : panicky H (option B)) (old new : N) (l : list link) (st : S) (x : H) : out (S * H * ends unit) :=
    match l with
    | [] => Val (st, x, Returns (Ok tt))
    | u :: l' =>
        then_p (if l_source u =? old then p_update_with h (l_index u) new (l_target u) st x
                else Val (st, x, Returns (Ok None)))
          (fun st x =>
        then_p (if l_target u =? old then p_update_with h (l_index u) (l_source u) new st x
                else Val (st, x, Returns (Ok None)))
          (fun st x => p_rebase_list h old new l' st x))
    end.
  Definition p_rebase_with {H B} (h : panicky H (option B)) (old new : N) (st : S) (x : H) : out (S * H * ends unit) :=
    let any := c_any cf in
    let* g := d_try_get_link I st old in
    match g with
    | Err e => Val (st, x, Returns (Err e))
    | Ok _ =>
        if old =? new then Val (st, x, Returns (Ok tt))
        else
          let* l1 := d_each_iter I st [any; old; any] in
          let* l2 := d_each_iter I st [any; any; old] in
          let us := filter (fun u => negb (l_index u =? old)) (l1 ++ l2) in
          fused_p h x (fun h x => p_rebase_list h old new us st x)
    end.

  (** The decorators, doublets-decorators/src/*.rs, as in Decorators.v *)
  Definition to_flow_p {H B} (m : out (S * H * ends (option B))) : out (S * H * ends flow) :=
    let* (st, x, r) := m in Val (st, x, emap flow_of r).
  Definition if_unused_p {H A} (q : list N) (st : S) (x : H) (k : out (S * H * ends A)) : out (S * H * ends A) :=
    let* i := qget q (c_index_part cf) in
    let* r := d_usages cf I st i in
    match r with
    | Err e => Val (st, x, Returns (Err e))
    | Ok [] => k
    | Ok us =>
        let* rs := get_all I st us in
        Val (st, x, Returns (match rs with Err e => Err e | Ok ls => Err (HasUsages ls) end))
    end.
  Definition decorate_p (d : decorator) : LinksP S :=
    match d with
    | DUniqueValidator => mkLinksP S (unique_validator cf I) (lp_create P)
        (fun H h q ch st x =>
           let* s := qget ch 1 in
           let* t := qget ch 2 in
           let* f := d_found I st [c_any cf; s; t] in
           if f then Val (st, x, Returns (Err (AlreadyExists s t)))
           else lp_update P H h q ch st x)
        (lp_delete P)
    | DUniqueResolver => mkLinksP S (unique_resolver cf I) (lp_create P)
        (fun H h q ch st x =>
           let* new := qget q 0 in
           let* s := qget ch 1 in
           let* t := qget ch 2 in
           let* o := d_search cf I st s t in
           match o with
           | Some old =>
               then_p (p_delete_with (pw_of h) new st x)
                 (fun st x => to_flow_p (p_update_with (pw_of h) old s t st x))
           | None => to_flow_p (p_update_with (pw_of h) new s t st x)
           end)
        (lp_delete P)
    | DUsagesValidator => mkLinksP S (usages_validator cf I) (lp_create P)
        (fun H h q ch st x => if_unused_p q st x (lp_update P H h q ch st x))
        (fun H h q st x => if_unused_p q st x (lp_delete P H h q st x))
    | DNonNullDeletion => mkLinksP S (non_null_deletion_resolver cf I) (lp_create P) (lp_update P)
        (fun H h q st x =>
           let* i := qget q 0 in
           then_p (p_update_by_with (pw_of h) q [i; c_null cf; c_null cf] st x)
             (fun st x => lp_delete P H h q st x))
    | DCascadeUsages => mkLinksP S (cascade_usages_resolver cf I) (lp_create P) (lp_update P)
        (fun H h q st x =>
           let* i := qget q 0 in
           then_p (p_delete_usages_with (pw_of h) i st x)
             (fun st x => lp_delete P H h q st x))
    | DCascadeUnique => mkLinksP S (cascade_unique_resolver cf I) (lp_create P)
        (fun H h q ch st x =>
           let* new := qget q 0 in
           let* s := qget ch 1 in
           let* t := qget ch 2 in
           let* o := d_search cf I st s t in
           match o with
           | Some old =>
               then_p (p_rebase_with (pw_of h) new old st x)
                 (fun st x => then_p (p_delete_with (pw_of h) new st x)
                    (fun st x => to_flow_p (p_update_with (pw_of h) old s t st x)))
           | None => to_flow_p (p_update_with (pw_of h) new s t st x)
           end)
        (lp_delete P)
    end.
End DoubletsP.
Definition wrapped_p {S} (cf : cfg) (ds : list decorator) (P : LinksP S) : LinksP S :=
  fold_right (fun d P => decorate_p cf P d) P ds.

(** ** Statements *)
(** The modifying calls of a store. *)
Inductive basecall := BCreate (q : list N) | BUpdate (q ch : list N) | BDelete (q : list N).
Definition basic {S} (I : LinksI S) (c : basecall) (st : S) : wcall S := fun H h x =>
  match c with
  | BCreate q => li_create I H h q st x
  | BUpdate q ch => li_update I H h q ch st x
  | BDelete q => li_delete I H h q st x
  end.
(** One whole call, with a handler that returns, leads from [st] to [st'] and tells [b], [a]. *)
Definition tells {S} (I : LinksI S) (st : S) (b a : link) (st' : S) : Prop :=
  exists c, calls_once (basic I c st) st' b a.
(** One call fails, tells nothing and leaves [st']. *)
Definition refuses {S} (I : LinksI S) (st : S) (e : error) (st' : S) : Prop :=
  exists c, fails_with (basic I c st) st' e.
(** A sequence of whole calls, with what each tells and the store it leaves. *)
Inductive whole {S} (I : LinksI S) : S -> list (link * link * S) -> S -> Prop :=
| whole_nil st : whole I st [] st
| whole_cons st b a st1 ms st2 : tells I st b a st1 -> whole I st1 ms st2 -> whole I st ((b, a, st1) :: ms) st2.

(** A handler told of the moments [ms] in turn; if it panics, the store of that moment. *)
Fixpoint hear {S H V} (h : panicky H V) (ms : list (link * link * S)) (x : H) : H * option S :=
  match ms with
  | [] => (x, None)
  | (b, a, st) :: ms' =>
      match h x b a with
      | (x', None) => (x', Some st)
      | (x', Some _) => hear h ms' x'
      end
  end.

(** How a call ends when the handler does not panic. *)
Inductive finish (S : Type) := FOk (st : S) | FErr (st : S) (e : error) | FPanic | FUB | FDiverge.
Arguments FOk {S}. Arguments FErr {S}. Arguments FPanic {S}. Arguments FUB {S}. Arguments FDiverge {S}.
Definition finishes {S H A} (f : finish S) (x : H) (m : out (S * H * ends A)) : Prop :=
  match f with
  | FOk st => exists a, m = Val (st, x, Returns (Ok a))
  | FErr st e => m = Val (st, x, Returns (Err e))
  | FPanic => m = Panic
  | FUB => m = UB
  | FDiverge => m = Diverge
  end.
Definition heard {S H V A} (ms : list (link * link * S)) (f : finish S) (h : panicky H V) (x : H) (m : out (S * H * ends A)) : Prop :=
  match hear h ms x with
  | (x', Some st) => m = Val (st, x', Unwinds)
  | (x', None) => finishes f x' m
  end.
(** The last store of a call that returns: that after the last whole call; or a call of the
    store failed after it. *)
Definition after_all {S} (I : LinksI S) (f : finish S) (st : S) : Prop :=
  match f with
  | FOk st' => st' = st
  | FErr st' e => st' = st \/ refuses I st e st'
  | _ => True
  end.
(** The call from [st] is a sequence of whole calls of the store [I], the handler hears of each
    after it; when the handler panics the call ends there. *)
Definition in_steps {S A} (I : LinksI S) (st : S) (f : forall H, panicky H flow -> H -> out (S * H * ends A)) : Prop :=
  exists ms st' fin, whole I st ms st' /\ after_all I fin st' /\ forall H h x, heard ms fin h x (f H h x).
Definition uin_steps {S} {A : Type -> Type} (I : LinksI S) (st : S)
  (f : forall H B, panicky H (option B) -> H -> out (S * H * ends (A B))) : Prop :=
  exists ms st' fin, whole I st ms st' /\ after_all I fin st' /\ forall H B h x, heard ms fin h x (f H B h x).

(** All modifying methods. *)
Record all_in_steps (cf : cfg) {S} (I : LinksI S) (P : LinksP S) : Prop := {
  as_create : forall q st, in_steps I st (fun H h x => lp_create P H h q st x);
  as_update : forall q ch st, in_steps I st (fun H h x => lp_update P H h q ch st x);
  as_delete : forall q st, in_steps I st (fun H h x => lp_delete P H h q st x);
  as_create_by_with : forall q st, uin_steps I st (fun H B h x => p_create_by_with P (B := B) h q st x);
  as_update_by_with : forall q ch st, uin_steps I st (fun H B h x => p_update_by_with P (B := B) h q ch st x);
  as_delete_by_with : forall q st, uin_steps I st (fun H B h x => p_delete_by_with P (B := B) h q st x);
  as_create_link_with : forall s t st, uin_steps (A := fun _ => flow) I st (fun H B h x => p_create_link_with P (B := B) h s t st x);
  as_delete_query_with : forall q st, uin_steps (A := fun _ => unit) I st (fun H B h x => p_delete_query_with P (B := B) h q st x);
  as_delete_usages_with : forall i st, uin_steps (A := fun _ => unit) I st (fun H B h x => p_delete_usages_with cf P (B := B) h i st x);
  as_rebase_with : forall old new st, uin_steps (A := fun _ => unit) I st (fun H B h x => p_rebase_with cf P (B := B) h old new st x)
}.

(** A handler that returns, seen as one that might panic. *)
Definition returning {H V} (h : H -> link -> link -> H * V) (hp : panicky H V) : Prop :=
  forall x b a, hp x b a = (fst (h x b a), Some (snd (h x b a))).
Definition returned {S H A} (m : out (S * H * result A)) : out (S * H * ends A) :=
  let* (st, x, r) := m in Val (st, x, Returns r).
(** For handlers that return, the calls are those of the other files. *)
Record same_calls (cf : cfg) {S} (P : LinksP S) : Prop := {
  sc_create : forall H h hp q st x, returning h hp -> lp_create P H hp q st x = returned (li_create (lp_links P) H h q st x);
  sc_update : forall H h hp q ch st x, returning h hp -> lp_update P H hp q ch st x = returned (li_update (lp_links P) H h q ch st x);
  sc_delete : forall H h hp q st x, returning h hp -> lp_delete P H hp q st x = returned (li_delete (lp_links P) H h q st x);
  sc_create_by_with : forall H B (h : uwrite H B) hp q st x, returning h hp ->
    p_create_by_with P hp q st x = returned (d_create_by_with (lp_links P) h q st x);
  sc_update_by_with : forall H B (h : uwrite H B) hp q ch st x, returning h hp ->
    p_update_by_with P hp q ch st x = returned (d_update_by_with (lp_links P) h q ch st x);
  sc_delete_by_with : forall H B (h : uwrite H B) hp q st x, returning h hp ->
    p_delete_by_with P hp q st x = returned (d_delete_by_with (lp_links P) h q st x);
  sc_create_link_with : forall H B (h : uwrite H B) hp s t st x, returning h hp ->
    p_create_link_with P hp s t st x = returned (d_create_link_with (lp_links P) h s t st x);
  sc_delete_query_with : forall H B (h : uwrite H B) hp q st x, returning h hp ->
    p_delete_query_with P hp q st x = returned (d_delete_query_with (lp_links P) h q st x);
  sc_delete_usages_with : forall H B (h : uwrite H B) hp i st x, returning h hp ->
    p_delete_usages_with cf P hp i st x = returned (d_delete_usages_with cf (lp_links P) h i st x);
  sc_rebase_with : forall H B (h : uwrite H B) hp old new st x, returning h hp ->
    p_rebase_with cf P hp old new st x = returned (d_rebase_with cf (lp_links P) h old new st x)
}.

(** A handler told that the links of [L] were removed, one after the other; if it panics, the links
    it was told of. *)
Fixpoint told_until {H V} (h : panicky H V) (L : list link) (x : H) : H * option (list link) :=
  match L with
  | [] => (x, None)
  | k :: L' =>
      match h x k nothing with
      | (x', None) => (x', Some [k])
      | (x', Some _) => let (x2, o) := told_until h L' x' in (x2, option_map (cons k) o)
      end
  end.

(** ** Proofs *)
Lemma returning_wadapt {H B} (h : uwrite H B) hp : returning h hp -> returning (wadapt h) (wadapt_p hp).
Proof.
  intros R [x o] b a. unfold wadapt_p, wadapt. rewrite (R x b a). destruct (h x b a) as [x' [r|]]; reflexivity.
Qed.
Lemma returning_fuse {H B} (h : uwrite H B) hp : returning h hp -> returning (fuse_call h) (fuse_p hp).
Proof.
  intros R [x d] b a. unfold fuse_p, fuse_call. destruct d; [reflexivity|]. rewrite (R x b a). destruct (h x b a) as [x' [r|]]; reflexivity.
Qed.
Lemma returning_pw {H} (h : whandler H) hp : returning h hp -> returning (uw_of h) (pw_of hp).
Proof. intros R x b a. unfold pw_of, uw_of. rewrite (R x b a). destruct (h x b a) as [x' []]; reflexivity. Qed.
Lemma returned_let {S H A C} (m : out C) (k : C -> out (S * H * result A)) :
  returned (let* c := m in k c) = let* c := m in returned (k c).
Proof. destruct m; reflexivity. Qed.
Lemma let_ext {A B} (m : out A) (k k' : A -> out B) : (forall c, k c = k' c) -> (let* c := m in k c) = let* c := m in k' c.
Proof. intros E. destruct m; cbn; auto. Qed.
Lemma then_returned {S H A B} (m : out (S * H * result A)) (k : S -> H -> out (S * H * result B)) k' :
  (forall st x, k' st x = returned (k st x)) -> then_p (returned m) k' = returned (then_ok m k).
Proof. intros E. destruct m as [[[st x] [a|e]]| | |]; cbn; auto. Qed.

Section Same.
  Context {S : Type}.
  Variable cf : cfg.
  Variable P : LinksP S.
  Notation I := (lp_links P).
  Hypothesis SC : forall H h hp q st x, returning h hp -> lp_create P H hp q st x = returned (li_create I H h q st x).
  Hypothesis SU : forall H h hp q ch st x, returning h hp -> lp_update P H hp q ch st x = returned (li_update I H h q ch st x).
  Hypothesis SD : forall H h hp q st x, returning h hp -> lp_delete P H hp q st x = returned (li_delete I H h q st x).

  Lemma sp_adapt {H B} (m : out (S * (H * option B) * result flow)) (m' : out (S * (H * option B) * ends flow)) :
    m' = returned m ->
    (let* (st', (x', o), r) := m' in Val (st', x', emap (fun _ => o) r)) =
    returned (let* (st', (x', o), r) := m in Val (st', x', rmap (fun _ => o) r)).
  Proof. intros ->. destruct m as [[[st [x o]] r]| | |]; reflexivity. Qed.
  Lemma sp_create_by_with H B (h : uwrite H B) hp q st x : returning h hp ->
    p_create_by_with P hp q st x = returned (d_create_by_with I h q st x).
  Proof. intros R. apply sp_adapt, SC, returning_wadapt, R. Qed.
  Lemma sp_update_by_with H B (h : uwrite H B) hp q ch st x : returning h hp ->
    p_update_by_with P hp q ch st x = returned (d_update_by_with I h q ch st x).
  Proof. intros R. apply sp_adapt, SU, returning_wadapt, R. Qed.
  Lemma sp_delete_by_with H B (h : uwrite H B) hp q st x : returning h hp ->
    p_delete_by_with P hp q st x = returned (d_delete_by_with I h q st x).
  Proof. intros R. apply sp_adapt, SD, returning_wadapt, R. Qed.
  Lemma sp_delete_list H B (h : uwrite H B) hp l : returning h hp -> forall st x,
    p_delete_list P hp l st x = returned (d_delete_list I h l st x).
  Proof.
    intros R. induction l as [|i l IH]; intros st x; [reflexivity|]. cbn [p_delete_list].
    unfold p_delete_with. rewrite (sp_delete_by_with _ _ h) by exact R.
    rewrite (then_returned _ (fun st x => d_delete_list I h l st x)) by exact IH. reflexivity.
  Qed.
  Lemma sp_fused {H B A} (h : uwrite H B) hp x (f : uwrite (H * bool) unit -> H * bool -> out (S * (H * bool) * result A)) f' :
    returning h hp -> (forall h hp x, returning h hp -> f' hp x = returned (f h x)) ->
    fused_p hp x f' = returned (let* (st', (x', _), r) := f (fuse_call h) (x, false) in Val (st', x', r)).
  Proof.
    intros R E. unfold fused_p. rewrite (E _ _ _ (returning_fuse _ _ R)).
    destruct (f (fuse_call h) (x, false)) as [[[st [y b]] r]| | |]; reflexivity.
  Qed.
  Lemma sp_delete_query_with H B (h : uwrite H B) hp q st x : returning h hp ->
    p_delete_query_with P hp q st x = returned (d_delete_query_with I h q st x).
  Proof.
    intros R. unfold p_delete_query_with, d_delete_query_with. rewrite returned_let. apply let_ext. intros _.
    rewrite returned_let. apply let_ext. intros [v o]. apply (sp_fused h hp x (fun h x => d_delete_list I h (rev v) st x)); auto.
    intros. now apply sp_delete_list.
  Qed.
  Lemma sp_delete_usages_with H B (h : uwrite H B) hp i st x : returning h hp ->
    p_delete_usages_with cf P hp i st x = returned (d_delete_usages_with cf I h i st x).
  Proof.
    intros R. unfold p_delete_usages_with, d_delete_usages_with. cbv zeta. do 2 (rewrite returned_let; apply let_ext; intros _).
    rewrite returned_let. apply let_ext. intros [v1 o1]. rewrite returned_let. apply let_ext. intros [v2 o2].
    apply (sp_fused h hp x (fun h x => d_delete_list I h (rev v2) st x)); auto. intros. now apply sp_delete_list.
  Qed.
  Lemma sp_create_link_with H B (h : uwrite H B) hp s t st x : returning h hp ->
    p_create_link_with P hp s t st x = returned (d_create_link_with I h s t st x).
  Proof.
    intros R. unfold p_create_link_with, d_create_link_with, p_create_with, d_create_with. cbv zeta.
    rewrite (sp_create_by_with _ unit (fun '(_, hs) b a => ((l_index a, fst (fuse_call h hs b a)), None))).
    - destruct (d_create_by_with I _ [] st (0, (x, false))) as [[[st1 [n hs]] [o|e]]| | |]; try reflexivity. cbn [returned obind].
      unfold p_update_with, d_update_with. rewrite (sp_update_by_with _ _ (fuse_call h)) by now apply returning_fuse.
      destruct (d_update_by_with I (fuse_call h) [n] [n; s; t] st1 hs) as [[[st2 hs2] r]| | |]; reflexivity.
    - intros [n hs] b a. rewrite (returning_fuse _ _ R). reflexivity.
  Qed.
  Lemma sp_rebase_list H B (h : uwrite H B) hp old new l : returning h hp -> forall st x,
    p_rebase_list P hp old new l st x = returned (d_rebase_list I h old new l st x).
  Proof.
    intros R. induction l as [|u l IH]; intros st x; [reflexivity|]. cbn [p_rebase_list].
    assert (X : forall (b : bool) i s t st x, (if b then p_update_with P hp i s t st x else Val (st, x, Returns (Ok None))) =
      returned (if b then d_update_with I h i s t st x else Val (st, x, Ok None))).
    { intros [|] i s t st' x'; [|reflexivity]. apply sp_update_by_with, R. }
    rewrite X. rewrite (then_returned _ (fun st x => then_ok (if l_target u =? old then d_update_with I h (l_index u) (l_source u) new st x else Val (st, x, Ok None))
      (fun st x => d_rebase_list I h old new l st x))); [reflexivity|].
    intros st1 x1. rewrite X. now apply then_returned.
  Qed.
  Lemma sp_rebase_with H B (h : uwrite H B) hp old new st x : returning h hp ->
    p_rebase_with cf P hp old new st x = returned (d_rebase_with cf I h old new st x).
  Proof.
    intros R. unfold p_rebase_with, d_rebase_with. cbv zeta. rewrite returned_let. apply let_ext. intros [g|e]; [|reflexivity].
    destruct (old =? new); [reflexivity|]. rewrite returned_let. apply let_ext. intros l1. rewrite returned_let. apply let_ext. intros l2.
    apply (sp_fused h hp x (fun h x => d_rebase_list I h old new _ st x)); auto. intros. now apply sp_rebase_list.
  Qed.
  Lemma provided_same : same_calls cf P.
  Proof.
    constructor; auto using sp_create_by_with, sp_update_by_with, sp_delete_by_with, sp_create_link_with,
      sp_delete_query_with, sp_delete_usages_with, sp_rebase_with.
  Qed.
End Same.

Lemma to_flow_returned {S H B} (m : out (S * H * result (option B))) m' : m' = returned m -> to_flow_p m' = returned (to_flow m).
Proof. intros ->. destruct m as [[[st x] r]| | |]; reflexivity. Qed.
Lemma if_unused_returned {S} cf (P : LinksP S) {H A} q st (x : H) (k : out (S * H * result A)) k' : k' = returned k ->
  if_unused_p cf P q st x k' = returned (if_unused cf (lp_links P) q st x k).
Proof.
  intros ->. unfold if_unused_p, if_unused. rewrite returned_let. apply let_ext. intros i. rewrite returned_let. apply let_ext.
  intros [[|u us]|e]; try reflexivity. rewrite returned_let. apply let_ext. reflexivity.
Qed.

Ltac slet := rewrite returned_let; apply let_ext.
Lemma decorate_same {S} cf d (P : LinksP S) : same_calls cf P -> same_calls cf (decorate_p cf P d).
Proof.
  intros [SC SU SD XC XU XD _ _ XX XR].
  assert (XU' : forall H (h : whandler H) hp i s t st x, returning h hp ->
    to_flow_p (p_update_with P (pw_of hp) i s t st x) = returned (to_flow (d_update_with (lp_links P) (uw_of h) i s t st x))).
  { intros. apply to_flow_returned, XU, returning_pw. assumption. }
  destruct d; apply provided_same; cbn [decorate_p lp_links lp_create lp_update lp_delete unique_validator unique_resolver usages_validator
    non_null_deletion_resolver cascade_usages_resolver cascade_unique_resolver li_create li_update li_delete]; auto; intros H h hp; intros.
  - slet. intros s. slet. intros t. slet. intros [|]; [reflexivity|]. auto.
  - slet. intros new. slet. intros s. slet. intros t. slet. intros [old|]; [|auto].
    unfold p_delete_with. rewrite (XD _ _ (uw_of h)) by (apply returning_pw; assumption). apply then_returned. intros. auto.
  - apply if_unused_returned. auto.
  - apply if_unused_returned. auto.
  - slet. intros i. rewrite (XU _ _ (uw_of h)) by (apply returning_pw; assumption). apply then_returned. intros. auto.
  - slet. intros i. rewrite (XX _ _ (uw_of h)) by (apply returning_pw; assumption). apply then_returned. intros. auto.
  - slet. intros new. slet. intros s. slet. intros t. slet. intros [old|]; [|auto].
    rewrite (XR _ _ (uw_of h)) by (apply returning_pw; assumption). apply then_returned. intros st1 x1.
    unfold p_delete_with. rewrite (XD _ _ (uw_of h)) by (apply returning_pw; assumption). apply then_returned. intros. auto.
Qed.
Lemma last_call_returned {S H} (h : whandler H) hp (x : H) b a (st : S) : returning h hp ->
  last_call hp x b a st = returned (let (x', f) := h x b a in Val (st, x', Ok f)).
Proof. intros R. unfold last_call. rewrite (R x b a). destruct (h x b a). reflexivity. Qed.
Lemma unit_same cf tops lops : same_calls cf (unit_panics cf tops lops).
Proof.
  apply provided_same; cbn [unit_panics unit_links lp_links lp_create lp_update lp_delete li_create li_update li_delete]; intros H h hp; intros.
  - unfold u_create_p, u_create. slet. intros _. cbv zeta. destruct (h_first st =? c_null cf).
    + destruct (c_iend cf <=? h_alloc st); [reflexivity|]. slet. intros [st1 [u|e]]; [|reflexivity]. slet. intros a. now apply last_call_returned.
    + slet. intros st1. now apply last_call_returned.
  - unfold u_update_p, u_update. slet. intros i. slet. intros s. slet. intros t. cbv zeta. slet. intros [lk|]; [|reflexivity]. slet. intros st1.
    now apply last_call_returned.
  - unfold u_delete_p, u_delete. slet. intros i. slet. intros [lk|]; [|reflexivity]. slet. intros [[st1 u] [f|e]]; [|reflexivity].
    slet. intros _. slet. intros st3. now apply last_call_returned.
Qed.
Lemma split_same cf tops lops : same_calls cf (split_panics cf tops lops).
Proof.
  apply provided_same; cbn [split_panics split_links lp_links lp_create lp_update lp_delete li_create li_update li_delete]; intros H h hp; intros.
  - unfold s_create_p, s_create. slet. intros _. cbv zeta. destruct (sh_first st =? c_null cf).
    + destruct (c_iend cf <=? sh_alloc st); [reflexivity|]. slet. intros [st1 [u|e]]; [|reflexivity]. slet. intros a. slet. intros st2. now apply last_call_returned.
    + slet. intros st1. slet. intros st2. now apply last_call_returned.
  - unfold s_update_p, s_update. slet. intros i. slet. intros s. slet. intros t. slet. intros [lk|]; [|reflexivity]. slet. intros st1.
    now apply last_call_returned.
  - unfold s_delete_p, s_delete. slet. intros i. slet. intros [lk|]; [|reflexivity]. slet. intros st0. slet. intros [[st1 u] [f|e]]; [|reflexivity].
    slet. intros _. slet. intros st3. now apply last_call_returned.
Qed.
Lemma wrapped_same {S} cf ds (P : LinksP S) : same_calls cf P -> same_calls cf (wrapped_p cf ds P).
Proof. intros W. induction ds as [|d ds IH]; [exact W|]. now apply decorate_same. Qed.
Lemma wrapped_links {S} cf ds (P : LinksP S) : lp_links (wrapped_p cf ds P) = wrapped cf ds (lp_links P).
Proof.
  induction ds as [|d ds IH]; [reflexivity|]. change (lp_links (decorate_p cf (wrapped_p cf ds P) d) = decorate cf d (wrapped cf ds (lp_links P))).
  rewrite <- IH. destruct d; reflexivity.
Qed.

(** *** Whole calls *)
Lemma whole_app {S} (I : LinksI S) st ms1 st1 ms2 st2 : whole I st ms1 st1 -> whole I st1 ms2 st2 -> whole I st (ms1 ++ ms2) st2.
Proof. intros W1 W2. induction W1; [exact W2|]. cbn [app]. econstructor; eauto. Qed.
Lemma hear_app {S H V} (h : panicky H V) (ms1 ms2 : list (link * link * S)) : forall x,
  hear h (ms1 ++ ms2) x = match hear h ms1 x with (x', None) => hear h ms2 x' | (x', Some st) => (x', Some st) end.
Proof.
  induction ms1 as [|[[b a] st] ms1 IH]; intros x; [reflexivity|]. cbn [app hear]. destruct (h x b a) as [x' [v|]]; [apply IH|reflexivity].
Qed.
(** handlers that panic at the same moments *)
Lemma hear_wadapt {S H B} (h : panicky H (option B)) (ms : list (link * link * S)) : forall x o,
  exists o', hear (wadapt_p h) ms (x, o) = ((fst (hear h ms x), o'), snd (hear h ms x)).
Proof.
  induction ms as [|[[b a] st] ms IH]; intros x o; cbn [hear].
  - eexists. reflexivity.
  - unfold wadapt_p at 1. destruct (h x b a) as [x' [[r|]|]]; [apply IH|apply IH|]. eexists. reflexivity.
Qed.
Lemma hear_fuse {S H B} (h : panicky H (option B)) (ms : list (link * link * S)) : forall x,
  hear (fuse_p h) ms (x, false) = ((fst (hear h ms x), false), snd (hear h ms x)).
Proof.
  induction ms as [|[[b a] st] ms IH]; intros x; cbn [hear]; [reflexivity|].
  unfold fuse_p at 1. destruct (h x b a) as [x' [[r|]|]]; [apply IH|apply IH|reflexivity].
Qed.
Lemma hear_pw {S H} (h : panicky H flow) (ms : list (link * link * S)) : forall x, hear (pw_of h) ms x = hear h ms x.
Proof.
  induction ms as [|[[b a] st] ms IH]; intros x; cbn [hear]; [reflexivity|].
  unfold pw_of at 1. destruct (h x b a) as [x' [[|]|]]; [apply IH|apply IH|reflexivity].
Qed.

(** One rule for a call made of handler-free work; [heard] is preserved by what is done with the
    handler's state and the verdict. *)
Definition fin_of {S C} (o : out C) (f : C -> finish S) : finish S :=
  match o with Val c => f c | Panic => FPanic | UB => FUB | Diverge => FDiverge end.

Section Steps.
  Context {S : Type}.
  Variable I : LinksI S.
  Variable st : S.

  Lemma t_let {A C} (m : out C) (f : C -> forall H, panicky H flow -> H -> out (S * H * ends A)) :
    (forall c, m = Val c -> in_steps I st (f c)) -> in_steps I st (fun H h x => let* c := m in f c H h x).
  Proof.
    intros W. destruct m as [c| | |]; cbn [obind]; [now apply W|..];
      [exists [], st, FPanic|exists [], st, FUB|exists [], st, FDiverge]; (split; [constructor|]; split; [exact Logic.I|]; intros; reflexivity).
  Qed.
  Lemma t_err {A} e : in_steps (A := A) I st (fun H h x => Val (st, x, Returns (Err e))).
  Proof. exists [], st, (FErr st e). split; [constructor|]. split; [now left|]. intros; reflexivity. Qed.
  Lemma ut_let {A : Type -> Type} {C} (m : out C) (f : C -> forall H B, panicky H (option B) -> H -> out (S * H * ends (A B))) :
    (forall c, m = Val c -> uin_steps I st (f c)) -> uin_steps I st (fun H B h x => let* c := m in f c H B h x).
  Proof.
    intros W. destruct m as [c| | |]; cbn [obind]; [now apply W|..];
      [exists [], st, FPanic|exists [], st, FUB|exists [], st, FDiverge]; (split; [constructor|]; split; [exact Logic.I|]; intros; reflexivity).
  Qed.
  Lemma ut_err {A : Type -> Type} e : uin_steps (A := A) I st (fun H B h x => Val (st, x, Returns (Err e))).
  Proof. exists [], st, (FErr st e). split; [constructor|]. split; [now left|]. intros; reflexivity. Qed.
  Lemma ut_ok {A : Type} (a : A) : uin_steps (A := fun _ => A) I st (fun H B h x => Val (st, x, Returns (Ok a))).
  Proof. exists [], st, (FOk st). split; [constructor|]. split; [reflexivity|]. intros. exists a. reflexivity. Qed.
  Lemma ut_none : uin_steps (A := option) I st (fun H B h x => Val (st, x, Returns (Ok None))).
  Proof. exists [], st, (FOk st). split; [constructor|]. split; [reflexivity|]. intros. exists None. reflexivity. Qed.

  (** one after another *)
  Lemma heard_then {H V A B} ms1 st1 ms2 fin (h : panicky H V) x (m : out (S * H * ends A)) (k : S -> H -> out (S * H * ends B)) :
    heard ms1 (FOk st1) h x m -> (forall x, heard ms2 fin h x (k st1 x)) -> heard (ms1 ++ ms2) fin h x (then_p m k).
  Proof.
    unfold heard. rewrite hear_app. destruct (hear h ms1 x) as [x' [s|]].
    - intros -> _. reflexivity.
    - intros (a & ->) K. apply K.
  Qed.
  Lemma heard_stop {H V A B} ms fin (h : panicky H V) x (m : out (S * H * ends A)) (k : S -> H -> out (S * H * ends B)) :
    match fin with FOk _ => False | _ => True end -> heard ms fin h x m -> heard ms fin h x (then_p m k).
  Proof.
    unfold heard. intros NO. destruct (hear h ms x) as [x' [s|]]; [intros ->; reflexivity|].
    destruct fin; cbn; intros E; try contradiction; rewrite E; reflexivity.
  Qed.
  Lemma t_then {A1 A2 : Type} (f : forall H, panicky H flow -> H -> out (S * H * ends A1))
    (g : S -> forall H, panicky H flow -> H -> out (S * H * ends A2)) :
    in_steps I st f -> (forall st, in_steps I st (g st)) -> in_steps I st (fun H h x => then_p (f H h x) (fun st x => g st H h x)).
  Proof.
    intros (ms & st1 & fin & W & AF & F) G. destruct fin as [s|s e| | |].
    - cbn in AF. subst s. destruct (G st1) as (ms2 & st2 & fin2 & W2 & AF2 & F2). exists (ms ++ ms2), st2, fin2.
      split; [eapply whole_app; eauto|]. split; [exact AF2|]. intros. eapply heard_then; eauto.
    - exists ms, st1, (FErr s e). split; auto. split; auto. intros. apply heard_stop; [exact Logic.I|auto].
    - exists ms, st1, FPanic. split; auto. split; auto. intros. apply heard_stop; [exact Logic.I|auto].
    - exists ms, st1, FUB. split; auto. split; auto. intros. apply heard_stop; [exact Logic.I|auto].
    - exists ms, st1, FDiverge. split; auto. split; auto. intros. apply heard_stop; [exact Logic.I|auto].
  Qed.
  Lemma ut_then {A1 A2 : Type -> Type} (f : forall H B, panicky H (option B) -> H -> out (S * H * ends (A1 B)))
    (g : S -> forall H B, panicky H (option B) -> H -> out (S * H * ends (A2 B))) :
    uin_steps I st f -> (forall st, uin_steps I st (g st)) -> uin_steps I st (fun H B h x => then_p (f H B h x) (fun st x => g st H B h x)).
  Proof.
    intros (ms & st1 & fin & W & AF & F) G. destruct fin as [s|s e| | |].
    - cbn in AF. subst s. destruct (G st1) as (ms2 & st2 & fin2 & W2 & AF2 & F2). exists (ms ++ ms2), st2, fin2.
      split; [eapply whole_app; eauto|]. split; [exact AF2|]. intros. eapply heard_then; eauto.
    - exists ms, st1, (FErr s e). split; auto. split; auto. intros. apply heard_stop; [exact Logic.I|auto].
    - exists ms, st1, FPanic. split; auto. split; auto. intros. apply heard_stop; [exact Logic.I|auto].
    - exists ms, st1, FUB. split; auto. split; auto. intros. apply heard_stop; [exact Logic.I|auto].
    - exists ms, st1, FDiverge. split; auto. split; auto. intros. apply heard_stop; [exact Logic.I|auto].
  Qed.

  Lemma t_pw {A : Type -> Type} (f : forall H B, panicky H (option B) -> H -> out (S * H * ends (A B))) :
    uin_steps I st f -> in_steps I st (fun H h x => f H unit (pw_of h) x).
  Proof.
    intros (ms & st1 & fin & W & AF & F). exists ms, st1, fin. split; auto. split; auto. intros H h x.
    specialize (F H unit (pw_of h) x). unfold heard in *. now rewrite hear_pw in F.
  Qed.
  Lemma t_to_flow (f : forall H, panicky H flow -> H -> out (S * H * ends (option unit))) :
    in_steps I st f -> in_steps I st (fun H h x => to_flow_p (f H h x)).
  Proof.
    intros (ms & st1 & fin & W & AF & F). exists ms, st1, fin. split; auto. split; auto. intros H h x.
    specialize (F H h x). unfold heard in *. destruct (hear h ms x) as [x' [s|]]; [now rewrite F|].
    destruct fin; cbn in *; [destruct F as (a & ->); eexists; reflexivity|now rewrite F..].
  Qed.
  Lemma ut_adapt (f : forall H, panicky H flow -> H -> out (S * H * ends flow)) : in_steps I st f ->
    uin_steps (A := option) I st (fun H B h x =>
      let* (st', (x', o), r) := f _ (wadapt_p h) (x, None) in Val (st', x', emap (fun _ => o) r)).
  Proof.
    intros (ms & st1 & fin & W & AF & F). exists ms, st1, fin. split; auto. split; auto. intros H B h x.
    specialize (F _ (wadapt_p h) (x, None)). unfold heard in *. destruct (hear_wadapt h ms x None) as (o' & E). rewrite E in F.
    destruct (hear h ms x) as [x' [s|]]; cbn [fst snd] in F; [now rewrite F|].
    destruct fin; cbn in *; [destruct F as (a & ->); eexists; reflexivity|now rewrite F..].
  Qed.
  Lemma ut_fuse {A : Type} (f : forall H B, panicky H (option B) -> H -> out (S * H * ends A)) :
    uin_steps (A := fun _ => A) I st f -> uin_steps (A := fun _ => A) I st (fun H B h x => fused_p h x (fun h x => f _ _ h x)).
  Proof.
    intros (ms & st1 & fin & W & AF & F). exists ms, st1, fin. split; auto. split; auto. intros H B h x.
    specialize (F _ _ (fuse_p h) (x, false)). unfold heard, fused_p in *. rewrite hear_fuse in F.
    destruct (hear h ms x) as [x' [s|]]; cbn [fst snd] in F; [now rewrite F|].
    destruct fin; cbn in *; [destruct F as (a & ->); eexists; reflexivity|now rewrite F..].
  Qed.
End Steps.

(** From the required methods to the provided ones. *)
Section StepsProvided.
  Context {S : Type}.
  Variable cf : cfg.
  Variable I : LinksI S.
  Variable P : LinksP S.
  Hypothesis TC : forall q st, in_steps I st (fun H h x => lp_create P H h q st x).
  Hypothesis TU : forall q ch st, in_steps I st (fun H h x => lp_update P H h q ch st x).
  Hypothesis TD : forall q st, in_steps I st (fun H h x => lp_delete P H h q st x).

  Lemma tp_create_by_with q st : uin_steps I st (fun H B h x => p_create_by_with P (B := B) h q st x).
  Proof. exact (ut_adapt I st _ (TC q st)). Qed.
  Lemma tp_update_by_with q ch st : uin_steps I st (fun H B h x => p_update_by_with P (B := B) h q ch st x).
  Proof. exact (ut_adapt I st _ (TU q ch st)). Qed.
  Lemma tp_delete_by_with q st : uin_steps I st (fun H B h x => p_delete_by_with P (B := B) h q st x).
  Proof. exact (ut_adapt I st _ (TD q st)). Qed.
  Lemma tp_delete_list l : forall st, uin_steps (A := fun _ => unit) I st (fun H B h x => p_delete_list P (B := B) h l st x).
  Proof.
    induction l as [|i l IH]; intros st; [apply ut_ok|].
    exact (ut_then (A2 := fun _ => unit) I st _ (fun st H B h x => p_delete_list P h l st x) (tp_delete_by_with [i] st) IH).
  Qed.
  Lemma tp_delete_query_with q st : uin_steps (A := fun _ => unit) I st (fun H B h x => p_delete_query_with P (B := B) h q st x).
  Proof.
    unfold p_delete_query_with. apply (ut_let I st (A := fun _ => unit)). intros n _. apply (ut_let I st (A := fun _ => unit)).
    intros [v o] _. exact (ut_fuse I st _ (tp_delete_list (rev v) st)).
  Qed.
  Lemma tp_delete_usages_with i st : uin_steps (A := fun _ => unit) I st (fun H B h x => p_delete_usages_with cf P (B := B) h i st x).
  Proof.
    unfold p_delete_usages_with. cbv zeta. do 2 (apply (ut_let I st (A := fun _ => unit)); intros ? _).
    apply (ut_let I st (A := fun _ => unit)). intros [v1 o1] _. apply (ut_let I st (A := fun _ => unit)). intros [v2 o2] _.
    exact (ut_fuse I st _ (tp_delete_list (rev v2) st)).
  Qed.
  Lemma tp_rebase_list old new l : forall st, uin_steps (A := fun _ => unit) I st (fun H B h x => p_rebase_list P (B := B) h old new l st x).
  Proof.
    induction l as [|u l IH]; intros st; [apply ut_ok|].
    assert (X : forall (b : bool) i s t st, uin_steps I st (fun H B h x => if b then p_update_with P (B := B) h i s t st x else Val (st, x, Returns (Ok None)))).
    { intros [|] i s t st'; [apply tp_update_by_with|apply ut_none]. }
    refine (ut_then (A1 := option) (A2 := fun _ => unit) I st _ (fun st H B h x => then_p
         (if l_target u =? old then p_update_with P h (l_index u) (l_source u) new st x else Val (st, x, Returns (Ok None)))
         (fun st x => p_rebase_list P h old new l st x)) (X _ _ _ _ st) _).
    intros st1. exact (ut_then (A1 := option) (A2 := fun _ => unit) I st1 _ (fun st H B h x => p_rebase_list P h old new l st x) (X _ _ _ _ st1) IH).
  Qed.
  Lemma tp_rebase_with old new st : uin_steps (A := fun _ => unit) I st (fun H B h x => p_rebase_with cf P (B := B) h old new st x).
  Proof.
    unfold p_rebase_with. cbv zeta. apply (ut_let I st (A := fun _ => unit)). intros [g|e] _; [|apply (ut_err I st (A := fun _ => unit))].
    destruct (old =? new); [apply ut_ok|]. apply (ut_let I st (A := fun _ => unit)). intros l1 _. apply (ut_let I st (A := fun _ => unit)). intros l2 _.
    exact (ut_fuse I st _ (tp_rebase_list old new _ st)).
  Qed.

  (** create_link_with remembers the index it was told *)
  Definition keep {H B} (h : panicky H (option B)) : panicky (N * (H * bool)) (option unit) :=
    fun '(_, hs) b a => let (hs', o) := fuse_p h hs b a in ((l_index a, hs'), option_map (fun _ => None) o).
  Lemma hear_keep {H B} (h : panicky H (option B)) (ms : list (link * link * S)) : forall n x,
    exists n', hear (keep h) ms (n, (x, false)) = ((n', (fst (hear h ms x), false)), snd (hear h ms x)) /\
      (snd (hear h ms x) = None -> n' = fold_left (fun _ c => l_index (snd (fst c))) ms n).
  Proof.
    induction ms as [|[[b a] st] ms IH]; intros n x; cbn [hear].
    - eexists. split; reflexivity.
    - cbn [keep fuse_p fold_left fst snd]. destruct (h x b a) as [x' [[r|]|]]; cbn [option_map]; [apply IH|apply IH|].
      eexists. split; [reflexivity|discriminate].
  Qed.
  Lemma tp_create_link_with s t st : uin_steps (A := fun _ => flow) I st (fun H B h x => p_create_link_with P (B := B) h s t st x).
  Proof.
    destruct (tp_create_by_with [] st) as (ms & st1 & fin & W & AF & F).
    assert (E : forall H B (h : panicky H (option B)) x, exists n',
      (snd (hear h ms x) = None -> n' = fold_left (fun _ c => l_index (snd (fst c))) ms 0) /\
      match snd (hear h ms x) with
      | Some s => p_create_with P (keep h) st (0, (x, false)) = Val (s, (n', (fst (hear h ms x), false)), Unwinds)
      | None => finishes fin (n', (fst (hear h ms x), false)) (p_create_with P (keep h) st (0, (x, false)))
      end).
    { intros H B h x. specialize (F _ unit (keep h) (0, (x, false))). unfold heard in F.
      destruct (hear_keep h ms 0 x) as (n' & E & N). rewrite E in F. exists n'. split; [exact N|].
      destruct (snd (hear h ms x)); exact F. }
    destruct fin as [s1|s1 e| | |].
    - cbn in AF. subst s1. set (new := fold_left (fun _ c => l_index (snd (fst c))) ms 0) in *.
      destruct (tp_update_by_with [new] [new; s; t] st1) as (ms2 & st2 & fin2 & W2 & AF2 & F2).
      exists (ms ++ ms2), st2, fin2. split; [eapply whole_app; eauto|]. split; [exact AF2|]. intros H B h x.
      destruct (E H B h x) as (n' & N & K). unfold heard. rewrite hear_app. unfold p_create_link_with. fold (keep h).
      destruct (hear h ms x) as [x' [s'|]]; cbn [fst snd] in *.
      + rewrite K. reflexivity.
      + rewrite (N eq_refl) in K. destruct K as (o & ->). cbn [obind]. unfold p_update_with.
        specialize (F2 _ _ (fuse_p h) (x', false)). unfold heard in F2. rewrite hear_fuse in F2.
        destruct (hear h ms2 x') as [x2 [s2|]]; cbn [fst snd] in F2; [now rewrite F2|].
        destruct fin2; cbn in F2 |- *; [destruct F2 as (o2 & ->); eexists; reflexivity|now rewrite F2..].
    - exists ms, st1, (FErr s1 e). split; auto. split; auto. intros H B h x. destruct (E H B h x) as (n' & _ & K).
      unfold heard, p_create_link_with. fold (keep h). destruct (hear h ms x) as [x' [s'|]]; cbn in K |- *; rewrite K; reflexivity.
    - exists ms, st1, FPanic. split; auto. split; auto. intros H B h x. destruct (E H B h x) as (n' & _ & K).
      unfold heard, p_create_link_with. fold (keep h). destruct (hear h ms x) as [x' [s'|]]; cbn in K |- *; rewrite K; reflexivity.
    - exists ms, st1, FUB. split; auto. split; auto. intros H B h x. destruct (E H B h x) as (n' & _ & K).
      unfold heard, p_create_link_with. fold (keep h). destruct (hear h ms x) as [x' [s'|]]; cbn in K |- *; rewrite K; reflexivity.
    - exists ms, st1, FDiverge. split; auto. split; auto. intros H B h x. destruct (E H B h x) as (n' & _ & K).
      unfold heard, p_create_link_with. fold (keep h). destruct (hear h ms x) as [x' [s'|]]; cbn in K |- *; rewrite K; reflexivity.
  Qed.
  Lemma provided_in_steps : all_in_steps cf I P.
  Proof.
    constructor; auto using tp_create_by_with, tp_update_by_with, tp_delete_by_with, tp_create_link_with,
      tp_delete_query_with, tp_delete_usages_with, tp_rebase_with.
  Qed.
End StepsProvided.

Lemma decorate_in_steps {S} cf d (I : LinksI S) (P : LinksP S) : all_in_steps cf I P -> all_in_steps cf I (decorate_p cf P d).
Proof.
  intros [TC TU TD XC XU XD _ _ XX XR].
  assert (XU' : forall i s t st, in_steps I st (fun H h x => to_flow_p (p_update_with P (pw_of h) i s t st x))).
  { intros i s t st. apply t_to_flow. exact (t_pw I st _ (XU [i] [i; s; t] st)). }
  destruct d; apply provided_in_steps; cbn [decorate_p lp_create lp_update lp_delete]; auto.
  - intros q ch st. apply t_let. intros s _. apply t_let. intros t _. apply t_let. intros [|] _; [apply t_err|apply TU].
  - intros q ch st. apply t_let. intros new _. apply t_let. intros s _. apply t_let. intros t _. apply t_let. intros [old|] _; [|apply XU'].
    refine (t_then I st _ (fun st H h x => to_flow_p (p_update_with P (pw_of h) old s t st x)) (t_pw I st _ (XD [new] st)) _). intros; apply XU'.
  - intros q ch st. unfold if_unused_p. apply t_let. intros i _. apply t_let. intros [[|u us]|e] _; [apply TU| |apply t_err].
    apply t_let. intros [ls|e] _; apply t_err.
  - intros q st. unfold if_unused_p. apply t_let. intros i _. apply t_let. intros [[|u us]|e] _; [apply TD| |apply t_err].
    apply t_let. intros [ls|e] _; apply t_err.
  - intros q st. apply t_let. intros i _.
    refine (t_then I st _ (fun st H h x => lp_delete P H h q st x) (t_pw I st _ (XU q [i; c_null cf; c_null cf] st)) _). intros; apply TD.
  - intros q st. apply t_let. intros i _.
    refine (t_then I st _ (fun st H h x => lp_delete P H h q st x) (t_pw (A := fun _ => unit) I st _ (XX i st)) _). intros; apply TD.
  - intros q ch st. apply t_let. intros new _. apply t_let. intros s _. apply t_let. intros t _. apply t_let. intros [old|] _; [|apply XU'].
    refine (t_then I st _ (fun st H h x => then_p (p_delete_with P (pw_of h) new st x)
      (fun st x => to_flow_p (p_update_with P (pw_of h) old s t st x))) (t_pw (A := fun _ => unit) I st _ (XR new old st)) _).
    intros st1. refine (t_then I st1 _ (fun st H h x => to_flow_p (p_update_with P (pw_of h) old s t st x)) (t_pw I st1 _ (XD [new] st1)) _).
    intros; apply XU'.
Qed.
Lemma wrapped_in_steps {S} cf ds (I : LinksI S) (P : LinksP S) : all_in_steps cf I P -> all_in_steps cf I (wrapped_p cf ds P).
Proof. intros W. induction ds as [|d ds IH]; [exact W|]. now apply decorate_in_steps. Qed.

(** A call of the store and the same call with a handler that may panic. *)
Definition paired {S} (f : wcall S) (fp : pcall S) : Prop :=
  (exists st' b a, calls_once f st' b a /\ forall H h x, fp H h x = last_call h x b a st') \/
  (exists st' e, fails_with f st' e /\ forall H h x, fp H h x = Val (st', x, Returns (Err e))) \/
  (forall H h x, fp H h x = Panic) /\ (forall H h x, f H h x = Panic) \/
  (forall H h x, fp H h x = UB) /\ (forall H h x, f H h x = UB) \/
  (forall H h x, fp H h x = Diverge) /\ (forall H h x, f H h x = Diverge).
Lemma paired_let {S C} (m : out C) (f : C -> wcall S) (fp : C -> pcall S) : (forall c, paired (f c) (fp c)) ->
  paired (fun H h x => let* c := m in f c H h x) (fun H h x => let* c := m in fp c H h x).
Proof. intros W. destruct m as [c| | |]; cbn [obind]; [apply W|..]; unfold paired; auto 6. Qed.
Lemma paired_err {S} (st : S) e : paired (fun H h x => Val (st, x, Err e)) (fun H h x => Val (st, x, Returns (Err e))).
Proof. right; left. exists st, e. split; [intros H h x|intros]; reflexivity. Qed.
Lemma paired_call {S} (st : S) b a : paired (fun H h x => let (x', f) := h x b a in Val (st, x', Ok f)) (fun H h x => last_call h x b a st).
Proof. left. exists st, b, a. split; [|reflexivity]. intros H h x. destruct (h x b a). reflexivity. Qed.
Lemma paired_steps {S} (I : LinksI S) c st (fp : pcall S) : paired (basic I c st) fp -> in_steps I st fp.
Proof.
  intros [(st' & b & a & C & F)|[(st' & e & C & F)|[[F _]|[[F _]|[F _]]]]].
  - exists [(b, a, st')], st', (FOk st'). split; [econstructor; [exists c; exact C|constructor]|]. split; [reflexivity|].
    intros H h x. rewrite F. unfold heard, last_call. cbn [hear]. destruct (h x b a) as [x' [f|]]; [eexists|]; reflexivity.
  - exists [], st, (FErr st' e). split; [constructor|]. split; [right; exists c; exact C|]. intros H h x. rewrite F. reflexivity.
  - exists [], st, FPanic. split; [constructor|]. split; [exact Logic.I|]. intros H h x. rewrite F. reflexivity.
  - exists [], st, FUB. split; [constructor|]. split; [exact Logic.I|]. intros H h x. rewrite F. reflexivity.
  - exists [], st, FDiverge. split; [constructor|]. split; [exact Logic.I|]. intros H h x. rewrite F. reflexivity.
Qed.

Section PairedUnit.
  Variables (cf : cfg) (tops : tree_ops) (lops : list_ops).
  Lemma pu_create q st : paired (fun H h x => u_create cf lops h q st x) (fun H h x => u_create_p cf lops h q st x).
  Proof.
    unfold u_create_p, u_create. apply paired_let. intros _. cbv zeta. destruct (h_first st =? c_null cf).
    - destruct (c_iend cf <=? h_alloc st); [apply paired_err|]. apply paired_let. intros [st1 [u|e]]; [|apply paired_err].
      apply paired_let. intros a. apply paired_call.
    - apply paired_let. intros st1. apply paired_call.
  Qed.
  Lemma pu_update q ch st : paired (fun H h x => u_update cf tops h q ch st x) (fun H h x => u_update_p cf tops h q ch st x).
  Proof.
    unfold u_update_p, u_update. apply paired_let. intros i. apply paired_let. intros s. apply paired_let. intros t. cbv zeta. apply paired_let.
    intros [lk|]; [|apply paired_err]. apply paired_let. intros st1. apply paired_call.
  Qed.
  Lemma pu_delete q st : paired (fun H h x => u_delete cf tops lops h q st x) (fun H h x => u_delete_p cf tops lops h q st x).
  Proof.
    unfold u_delete_p, u_delete. apply paired_let. intros i. apply paired_let. intros [lk|]; [|apply paired_err]. apply paired_let.
    intros [[st1 u] [f|e]]; [|apply paired_err]. apply paired_let. intros _. apply paired_let. intros st3. apply paired_call.
  Qed.
  Lemma unit_in_steps : all_in_steps cf (unit_links cf tops lops) (unit_panics cf tops lops).
  Proof.
    apply provided_in_steps; intros.
    - exact (paired_steps (unit_links cf tops lops) (BCreate q) st _ (pu_create q st)).
    - exact (paired_steps (unit_links cf tops lops) (BUpdate q ch) st _ (pu_update q ch st)).
    - exact (paired_steps (unit_links cf tops lops) (BDelete q) st _ (pu_delete q st)).
  Qed.
  Lemma ps_create q st : paired (fun H h x => s_create cf tops lops h q st x) (fun H h x => s_create_p cf tops lops h q st x).
  Proof.
    unfold s_create_p, s_create. apply paired_let. intros _. cbv zeta. destruct (sh_first st =? c_null cf).
    - destruct (c_iend cf <=? sh_alloc st); [apply paired_err|]. apply paired_let. intros [st1 [u|e]]; [|apply paired_err].
      apply paired_let. intros a. apply paired_let. intros st2. apply paired_call.
    - apply paired_let. intros st1. apply paired_let. intros st2. apply paired_call.
  Qed.
  Lemma ps_update q ch st : paired (fun H h x => s_update cf tops h q ch st x) (fun H h x => s_update_p cf tops h q ch st x).
  Proof.
    unfold s_update_p, s_update. apply paired_let. intros i. apply paired_let. intros s. apply paired_let. intros t. apply paired_let.
    intros [lk|]; [|apply paired_err]. apply paired_let. intros st1. apply paired_call.
  Qed.
  Lemma ps_delete q st : paired (fun H h x => s_delete cf tops lops h q st x) (fun H h x => s_delete_p cf tops lops h q st x).
  Proof.
    unfold s_delete_p, s_delete. apply paired_let. intros i. apply paired_let. intros [lk|]; [|apply paired_err]. apply paired_let. intros st0.
    apply paired_let. intros [[st1 u] [f|e]]; [|apply paired_err]. apply paired_let. intros _. apply paired_let. intros st3. apply paired_call.
  Qed.
  Lemma split_in_steps : all_in_steps cf (split_links cf tops lops) (split_panics cf tops lops).
  Proof.
    apply provided_in_steps; intros.
    - exact (paired_steps (split_links cf tops lops) (BCreate q) st _ (ps_create q st)).
    - exact (paired_steps (split_links cf tops lops) (BUpdate q ch) st _ (ps_update q ch st)).
    - exact (paired_steps (split_links cf tops lops) (BDelete q) st _ (ps_delete q st)).
  Qed.
End PairedUnit.

Lemma paired_once {S} (f : wcall S) fp st' b a : paired f fp -> calls_once f st' b a -> forall H h x, fp H h x = last_call h x b a st'.
Proof.
  intros PA C. pose proof (C (list (link * link)) (fun x b a => (x ++ [(b, a)], Continue)) []) as C0. cbn [fst snd app] in C0.
  destruct PA as [(s2 & b2 & a2 & C2 & F)|[(s2 & e & C2 & F)|[[_ F]|[[_ F]|[_ F]]]]].
  - rewrite C2 in C0. cbn [fst snd app] in C0. injection C0 as -> -> ->. exact F.
  - rewrite C2 in C0. discriminate.
  - rewrite F in C0. discriminate.
  - rewrite F in C0. discriminate.
  - rewrite F in C0. discriminate.
Qed.
Lemma paired_fails {S} (f : wcall S) fp st' e : paired f fp -> fails_with f st' e -> forall H h x, fp H h x = Val (st', x, Returns (Err e)).
Proof.
  intros PA C. pose proof (C (list (link * link)) (fun x b a => (x ++ [(b, a)], Continue)) []) as C0.
  destruct PA as [(s2 & b2 & a2 & C2 & F)|[(s2 & e2 & C2 & F)|[[_ F]|[[_ F]|[_ F]]]]].
  - rewrite C2 in C0. discriminate.
  - rewrite C2 in C0. injection C0 as -> ->. exact F.
  - rewrite F in C0. discriminate.
  - rewrite F in C0. discriminate.
  - rewrite F in C0. discriminate.
Qed.

(** *** Stores that follow the abstract store *)
Section GoodP.
  Context {S : Type}.
  Variables (cf : cfg) (sp : store_spec) (P : LinksP S) (R : S -> astate -> Prop).
  Notation I := (lp_links P).
  Hypothesis IOK : links_ok cf sp I R.
  Hypothesis PC : forall q st, paired (fun H h x => li_create I H h q st x) (fun H h x => lp_create P H h q st x).
  Hypothesis PU : forall q ch st, paired (fun H h x => li_update I H h q ch st x) (fun H h x => lp_update P H h q ch st x).
  Hypothesis PD : forall q st, paired (fun H h x => li_delete I H h q st x) (fun H h x => lp_delete P H h q st x).

  Definition verdict {H A} (st : S) (o : H * option A) : out (S * H * ends A) :=
    Val (st, fst o, match snd o with Some v => Returns (Ok v) | None => Unwinds end).
  Lemma adapt_last {H B} (h : panicky H (option B)) x b a st :
    (let* (st', (x', o), r) := last_call (wadapt_p h) (x, None) b a st in Val (st', x', emap (fun _ => o) r)) = verdict st (h x b a).
  Proof. unfold last_call, wadapt_p, verdict. destruct (h x b a) as [x' [[r|]|]]; reflexivity. Qed.
  Lemma pd_once q st st' b a : calls_once (fun H h x => li_delete I H h q st x) st' b a ->
    forall H B (h : panicky H (option B)) x, p_delete_by_with P h q st x = verdict st' (h x b a).
  Proof. intros C H B h x. unfold p_delete_by_with. rewrite (paired_once _ _ _ _ _ (PD q st) C). apply adapt_last. Qed.
  Lemma pc_once q st st' b a : calls_once (fun H h x => li_create I H h q st x) st' b a ->
    forall H B (h : panicky H (option B)) x, p_create_by_with P h q st x = verdict st' (h x b a).
  Proof. intros C H B h x. unfold p_create_by_with. rewrite (paired_once _ _ _ _ _ (PC q st) C). apply adapt_last. Qed.
  Lemma pu_once q ch st st' b a : calls_once (fun H h x => li_update I H h q ch st x) st' b a ->
    forall H B (h : panicky H (option B)) x, p_update_by_with P h q ch st x = verdict st' (h x b a).
  Proof. intros C H B h x. unfold p_update_by_with. rewrite (paired_once _ _ _ _ _ (PU q ch st) C). apply adapt_last. Qed.
  Lemma pc_fails q st st' e : fails_with (fun H h x => li_create I H h q st x) st' e ->
    forall H B (h : panicky H (option B)) x, p_create_by_with P h q st x = Val (st', x, Returns (Err e)).
  Proof. intros C H B h x. unfold p_create_by_with. rewrite (paired_fails _ _ _ _ (PC q st) C). reflexivity. Qed.

  (** a list of deletions *)
  Lemma pdl_ok l : forall st a, R st a -> del_ok sp a l -> forall H B (h : panicky H (option B)) x,
    match told_until h (links_at a l) x with
    | (x', None) => exists st', R st' (a_deletes a l) /\ p_delete_list P (fuse_p h) l st (x, false) = Val (st', (x', false), Returns (Ok tt))
    | (x', Some L1) => exists l1 l2 st', l = l1 ++ l2 /\ L1 = links_at a l1 /\ R st' (a_deletes a l1) /\
        p_delete_list P (fuse_p h) l st (x, false) = Val (st', (x', false), Unwinds)
    end.
  Proof.
    induction l as [|i l IH]; intros st a HR D H B h x.
    - exists st. split; [exact HR|reflexivity].
    - pose proof (del_ok_nodup _ _ _ D) as ND. inversion ND as [|? ? NI _]; subst.
      destruct D as (M & DP & D). destruct (a_map a i) as [[s t]|] eqn:E; [|congruence].
      destruct (lo_delete _ _ _ _ IOK _ _ [i] i s t HR eq_refl E DP) as (st1 & R1 & C).
      assert (LA : links_at a (i :: l) = mkLink i s t :: links_at (a_delete a i) l).
      { rewrite links_at_delete by exact NI. cbn [links_at flat_map]. rewrite E. reflexivity. }
      rewrite LA. cbn [told_until p_delete_list]. unfold p_delete_with. rewrite (pd_once _ _ _ _ _ C).
      unfold verdict. cbn [fuse_p].
      destruct (h x (mkLink i s t) nothing) as [x' [r|]]; cbn [then_p obind fst snd].
      + specialize (IH st1 _ R1 D H B h x'). destruct (told_until h (links_at (a_delete a i) l) x') as [x2 [L1|]]; cbn [option_map].
        * destruct IH as (l1 & l2 & st' & -> & -> & R' & K). exists (i :: l1), l2, st'. split; [reflexivity|].
          split; [|split; [exact R'|destruct r; exact K]].
          assert (NI1 : ~ In i l1) by (intros X; apply NI, in_or_app; now left).
          rewrite links_at_delete by exact NI1. cbn [links_at flat_map]. rewrite E. reflexivity.
        * destruct IH as (st' & R' & K). exists st'. split; [exact R'|]. destruct r; exact K.
      + exists [i], l, st1. split; [reflexivity|]. split; [cbn [links_at flat_map]; rewrite E; reflexivity|]. split; [exact R1|reflexivity].
  Qed.
  Lemma links_at_index a l : (forall i, In i l -> a_map a i <> None) -> map l_index (links_at a l) = l.
  Proof.
    induction l as [|i l IH]; intros K; [reflexivity|]. cbn [links_at flat_map]. fold (links_at a l).
    destruct (a_map a i) as [[s t]|] eqn:E; [|destruct (K i (or_introl eq_refl) E)]. cbn [app map l_index].
    rewrite IH; [reflexivity|]. intros; apply K; now right.
  Qed.
  Lemma del_ok_map l : forall a i, del_ok sp a l -> In i l -> a_map a i <> None.
  Proof.
    induction l as [|j l IH]; intros a i; [intros _ []|]. intros (M & _ & D) [->|K]; [exact M|].
    pose proof (IH _ _ D K) as X. rewrite a_delete_map in X. unfold upd in X. destruct (i =? j); [congruence|exact X].
  Qed.
  Lemma pdl_removed l st a : R st a -> del_ok sp a l -> forall H B (h : panicky H (option B)) x,
    match told_until h (links_at a l) x with
    | (x', None) => exists st' a', R st' a' /\ removed I st st' (links_at a l) /\
        fused_p h x (fun h x => p_delete_list P h l st x) = Val (st', x', Returns (Ok tt))
    | (x', Some L1) => exists st' a', R st' a' /\ removed I st st' L1 /\
        fused_p h x (fun h x => p_delete_list P h l st x) = Val (st', x', Unwinds)
    end.
  Proof.
    intros HR D H B h x. pose proof (pdl_ok l st a HR D H B h x) as K. unfold fused_p.
    destruct (told_until h (links_at a l) x) as [x' [L1|]].
    - destruct K as (l1 & l2 & st' & -> & -> & R' & K). exists st', (a_deletes a l1). split; [exact R'|]. rewrite K. split; [|reflexivity].
      apply (ob_removed cf sp I R IOK _ _ _ _ _ HR R'). intros j. rewrite links_at_index; [reflexivity|].
      intros i Hi. apply (del_ok_map _ _ _ D). apply in_or_app. now left.
    - destruct K as (st' & R' & K). exists st', (a_deletes a l). split; [exact R'|]. rewrite K. split; [|reflexivity].
      apply (ob_removed cf sp I R IOK _ _ _ _ _ HR R'). intros j. rewrite links_at_index; [reflexivity|].
      intros i Hi. now apply (del_ok_map _ _ _ D).
  Qed.
End GoodP.

Section GoodQ.
  Context {S : Type}.
  Variables (cf : cfg) (sp : store_spec) (P : LinksP S) (R : S -> astate -> Prop).
  Notation I := (lp_links P).
  Notation any := (c_any cf).
  Hypothesis IOK : links_ok cf sp I R.
  Hypothesis PC : forall q st, paired (fun H h x => li_create I H h q st x) (fun H h x => lp_create P H h q st x).
  Hypothesis PU : forall q ch st, paired (fun H h x => li_update I H h q ch st x) (fun H h x => lp_update P H h q ch st x).
  Hypothesis PD : forall q st, paired (fun H h x => li_delete I H h q st x) (fun H h x => lp_delete P H h q st x).

  (** the deletions of links that may be deleted *)
  Lemma pg_deletes D st a L : del_safe sp D -> R st a -> NoDup L -> (forall l, In l L -> D a (l_index l)) ->
    (forall l, In l L -> li_get I st (l_index l) = Val (Some l)) ->
    forall H B (h : panicky H (option B)) x,
    match told_until h (rev L) x with
    | (x', None) => exists st' a', R st' a' /\ removed I st st' (rev L) /\
        fused_p h x (fun h x => p_delete_list P h (rev (map l_index L)) st x) = Val (st', x', Returns (Ok tt))
    | (x', Some L1) => exists st' a', R st' a' /\ removed I st st' L1 /\
        fused_p h x (fun h x => p_delete_list P h (rev (map l_index L)) st x) = Val (st', x', Unwinds)
    end.
  Proof.
    intros DD HR ND SEP K. pose proof (lo_wf _ _ _ _ IOK _ _ HR) as W.
    assert (K' : forall l, In l L -> a_map a (l_index l) = Some (l_source l, l_target l)).
    { intros [i s t] Hl. apply (ob_link cf sp I R IOK _ _ _ _ _ HR). now apply K in Hl. }
    assert (DO : del_ok sp a (rev (map l_index L))).
    { apply (del_ok_safe sp D _ DD); [|apply NoDup_rev; eapply nodup_idx; eauto|].
      - intros i Hi. apply in_rev, in_map_iff in Hi as (l & <- & Hl). auto.
      - intros i Hi. apply in_rev, in_map_iff in Hi as (l & <- & Hl). rewrite K' by auto. discriminate. }
    assert (LA : links_at a (rev (map l_index L)) = rev L).
    { rewrite <- map_rev. apply links_at_self; auto. intros l Hl. apply K'. now apply in_rev. }
    intros H B h x. pose proof (pdl_removed cf sp P R IOK PD _ st a HR DO H B h x) as X. rewrite LA in X. exact X.
  Qed.

  Lemma pg_delete_visits D st a q L : del_safe sp D -> R st a -> (forall l, In l L -> D a (l_index l)) -> visits I st q L -> NoDup L ->
    (forall l, In l L -> li_get I st (l_index l) = Val (Some l)) ->
    forall H B (h : panicky H (option B)) x,
    match told_until h (rev L) x with
    | (x', None) => exists st' a', R st' a' /\ removed I st st' (rev L) /\ p_delete_query_with P h q st x = Val (st', x', Returns (Ok tt))
    | (x', Some L1) => exists st' a', R st' a' /\ removed I st st' L1 /\ p_delete_query_with P h q st x = Val (st', x', Unwinds)
    end.
  Proof.
    intros DD HR DP V ND K H B h x. pose proof (pg_deletes D st a L DD HR ND DP K H B h x) as X.
    unfold p_delete_query_with, d_count_by. rewrite (proj2 V). cbn [obind].
    rewrite (d_each_by_ok I _ _ _ _ _ _ _ V), urun_map. cbn [obind app]. exact X.
  Qed.

  Lemma pg_delete_usages D st a i : del_safe sp D -> R st a -> src_seen cf I st i -> tgt_seen cf I st i ->
    (forall l, user I st i l -> D a (l_index l)) -> (forall x, x <> i -> ~ is_link I st x i i) ->
    exists L, NoDup L /\ (forall l, In l L <-> user I st i l) /\
    forall H B (h : panicky H (option B)) x,
    match told_until h L x with
    | (x', None) => exists st' a', R st' a' /\ removed I st st' L /\ p_delete_usages_with cf P h i st x = Val (st', x', Returns (Ok tt))
    | (x', Some L1) => exists st' a', R st' a' /\ removed I st st' L1 /\ p_delete_usages_with cf P h i st x = Val (st', x', Unwinds)
    end.
  Proof.
    intros DD HR (L1 & V1 & ND1 & K1) (L2 & V2 & ND2 & K2) DP NB.
    set (L := filter (fun k => negb (l_index k =? i)) L1 ++ filter (fun k => negb (l_index k =? i)) L2).
    assert (IN : forall l, In l L <-> user I st i l).
    { intros l. unfold L, user. rewrite in_app_iff, !filter_In, K1, K2, !negb_true_iff, !N.eqb_neq. tauto. }
    assert (ND : NoDup L).
    { apply NoDup_app_intro; auto using NoDup_filter. intros l M1 M2.
      apply filter_In in M1 as [M1 M3], M2 as [M2 _]. apply K1 in M1 as [G1 G2]. apply K2 in M2 as [_ G3].
      apply negb_true_iff, N.eqb_neq in M3. apply (NB (l_index l)); auto. unfold is_link.
      destruct l; cbn in *. congruence. }
    exists (rev L). split; [now apply NoDup_rev|]. split; [intros l; rewrite <- in_rev; apply IN|]. intros H B h x.
    pose proof (pg_deletes D st a L DD HR ND (fun l Hl => DP l (proj1 (IN l) Hl)) (fun l Hl => proj1 (proj1 (IN l) Hl)) H B h x) as X.
    unfold p_delete_usages_with, d_count_by. rewrite (proj2 V1), (proj2 V2). cbn [obind].
    rewrite (d_each_by_ok I _ _ _ _ _ _ _ V1), (urun_filter (fun k => negb (l_index k =? i)) l_index). cbn [obind app].
    rewrite (d_each_by_ok I _ _ _ _ _ _ _ V2), (urun_filter (fun k => negb (l_index k =? i)) l_index). cbn [obind].
    rewrite <- map_app. exact X.
  Qed.

  Lemma pg_create_link st a s t : R st a -> sp_create sp a -> sp_update sp (a_create a) (a_next a) s t ->
    (exists st' e, same_links I st st' /\ R st' a /\
       forall H B (h : panicky H (option B)) x, p_create_link_with P h s t st x = Val (st', x, Returns (Err e))) \/
    (exists i b st1 st2, adds cf I st st1 i 0 0 /\ adds cf I st st2 i s t /\ (exists a1, R st1 a1) /\ (exists a2, R st2 a2) /\
       forall H B (h : panicky H (option B)) x, p_create_link_with P h s t st x =
         match h x nothing (mkLink i 0 0) with
         | (x1, None) => Val (st1, x1, Unwinds)
         | (x1, Some _) =>
             match h x1 b (mkLink i s t) with
             | (x2, None) => Val (st2, x2, Unwinds)
             | (x2, Some o) => Val (st2, x2, Returns (Ok (flow_of o)))
             end
         end).
  Proof.
    intros HR SC SU. pose proof (lo_wf _ _ _ _ IOK _ _ HR) as W.
    destruct (create_cases cf sp I R IOK st a [] HR SC) as [F C|st' F E R' C|st1 F R1 C].
    - left. exists st, (LimitReached (c_iend cf)). split; [intros j; reflexivity|]. split; [exact HR|]. intros H B h x.
      unfold p_create_link_with, p_create_with. rewrite (pc_fails P PC _ _ _ _ C). reflexivity.
    - left. exists st', AllocFailed. split; [|split; [exact R'|]].
      + intros j. rewrite (lo_get _ _ _ _ IOK _ _ _ R'), (lo_get _ _ _ _ IOK _ _ _ HR). reflexivity.
      + intros H B h x. unfold p_create_link_with, p_create_with. rewrite (pc_fails P PC _ _ _ _ C). reflexivity.
    - right. assert (M : a_map (a_create a) (a_next a) = Some (0, 0)) by (rewrite a_create_map by auto; apply upd_same).
      destruct (lo_update _ _ _ _ IOK st1 (a_create a) [a_next a] [a_next a; s; t] (a_next a) s t R1 eq_refl eq_refl eq_refl) as (st2 & b & R2 & C2).
      { congruence. }
      { exact SU. }
      exists (a_next a), b, st1, st2. split; [|split; [|split; [|split]]]; eauto.
      + split; [eapply awf_next_iend; eauto|]. split; [apply (ob_none cf sp I R IOK _ _ _ HR); now apply a_next_fresh|].
        split; [now apply (ob_link cf sp I R IOK _ _ _ _ _ R1)|].
        intros j J. apply (ob_get cf sp I R IOK _ _ _ _ HR R1). rewrite a_create_map by auto. now apply upd_other.
      + now apply (ob_adds cf sp I R IOK st a).
      + intros H B h x. unfold p_create_link_with, p_create_with. rewrite (pc_once P PC _ _ _ _ _ C). unfold verdict. cbn [fuse_p].
        destruct (h x nothing (mkLink (a_next a) 0 0)) as [x1 [o|]]; cbn [option_map fst snd obind]; [|reflexivity].
        assert (X : forall (y : H * bool) (z : option unit), p_update_with P (fuse_p h) (a_next a) s t st1 (x1, false) = verdict st2 (fuse_p h (x1, false) b (mkLink (a_next a) s t))).
        { intros _ _. exact (pu_once P PU _ _ _ _ _ _ C2 _ _ (fuse_p h) (x1, false)). }
        destruct o as [r|]; cbn [option_map fst snd obind l_index]; rewrite (X (x1, false) None); unfold verdict; cbn [fuse_p];
          destruct (h x1 b (mkLink (a_next a) s t)) as [x2 [[r2|]|]]; reflexivity.
  Qed.
End GoodQ.

(** * C88 *)
(** Whatever decorators are put over a store, a modifying method is a sequence of whole calls
    of that store, of which the handler hears one after the other; when the handler panics the
    sequence ends there, and the store is as that call left it. *)
Lemma L_C88_unit cf tops lops ds :
  all_in_steps cf (unit_links cf tops lops) (wrapped_p cf ds (unit_panics cf tops lops)).
Proof. apply wrapped_in_steps, unit_in_steps. Qed.
Lemma L_C88_split cf tops lops ds :
  all_in_steps cf (split_links cf tops lops) (wrapped_p cf ds (split_panics cf tops lops)).
Proof. apply wrapped_in_steps, split_in_steps. Qed.
(** With handlers that do not panic these are the methods of the other claims. *)
Lemma L_C88_unit_returning cf tops lops ds :
  same_calls cf (wrapped_p cf ds (unit_panics cf tops lops)) /\
  lp_links (wrapped_p cf ds (unit_panics cf tops lops)) = wrapped cf ds (unit_links cf tops lops).
Proof. split; [apply wrapped_same, unit_same|apply wrapped_links]. Qed.
Lemma L_C88_split_returning cf tops lops ds :
  same_calls cf (wrapped_p cf ds (split_panics cf tops lops)) /\
  lp_links (wrapped_p cf ds (split_panics cf tops lops)) = wrapped cf ds (split_links cf tops lops).
Proof. split; [apply wrapped_same, split_same|apply wrapped_links]. Qed.

(** What every call of the store keeps is kept by every method, however its handler behaves. *)
Definition kept {S} (I : LinksI S) (Q : S -> Prop) : Prop :=
  (forall st b a st', Q st -> tells I st b a st' -> Q st') /\ (forall st e st', Q st -> refuses I st e st' -> Q st').
Lemma hear_kept {S} (I : LinksI S) (Q : S -> Prop) : kept I Q -> forall st ms st', whole I st ms st' -> Q st ->
  Q st' /\ forall H V (h : panicky H V) x x' s, hear h ms x = (x', Some s) -> Q s.
Proof.
  intros [KT _]. induction 1 as [st|st b a st1 ms st2 T W IH]; intros HQ.
  - split; auto. discriminate.
  - assert (Q1 : Q st1) by eauto. destruct (IH Q1) as [I1 I2]. split; auto.
    intros H V h x x' s. cbn [hear]. destruct (h x b a) as [y [v|]]; [apply I2|]. intros E. injection E as _ <-. exact Q1.
Qed.
Lemma heard_kept {S} (I : LinksI S) (Q : S -> Prop) st ms st' fin : kept I Q -> whole I st ms st' -> after_all I fin st' -> Q st ->
  forall H V A (h : panicky H V) x (m : out (S * H * ends A)) s x' r, heard ms fin h x m -> m = Val (s, x', r) -> Q s.
Proof.
  intros K W AF HQ H V A h x m s x' r HE ->. destruct (hear_kept I Q K st ms st' W HQ) as [Q1 Q2].
  unfold heard in HE. destruct (hear h ms x) as [y [s0|]] eqn:E.
  - injection HE as -> _ _. eapply Q2; eauto.
  - destruct fin as [s0|s0 e| | |]; cbn [finishes after_all] in *; try discriminate.
    + destruct HE as [a HE]. injection HE as -> _ _. now rewrite AF.
    + injection HE as -> _ _. destruct AF as [->|RF]; auto. destruct K as [_ KR]. eauto.
Qed.
(** every modifying method with every handler *)
Inductive any_call (cf : cfg) {S} (P : LinksP S) (st : S) : S -> Prop :=
| any_create H h q x s x' r : lp_create P H h q st x = Val (s, x', r) -> any_call cf P st s
| any_update H h q ch x s x' r : lp_update P H h q ch st x = Val (s, x', r) -> any_call cf P st s
| any_delete H h q x s x' r : lp_delete P H h q st x = Val (s, x', r) -> any_call cf P st s
| any_create_by_with H B (h : panicky H (option B)) q x s x' r : p_create_by_with P h q st x = Val (s, x', r) -> any_call cf P st s
| any_update_by_with H B (h : panicky H (option B)) q ch x s x' r : p_update_by_with P h q ch st x = Val (s, x', r) -> any_call cf P st s
| any_delete_by_with H B (h : panicky H (option B)) q x s x' r : p_delete_by_with P h q st x = Val (s, x', r) -> any_call cf P st s
| any_create_link_with H B (h : panicky H (option B)) i j x s x' r : p_create_link_with P h i j st x = Val (s, x', r) -> any_call cf P st s
| any_delete_query_with H B (h : panicky H (option B)) q x s x' r : p_delete_query_with P h q st x = Val (s, x', r) -> any_call cf P st s
| any_delete_usages_with H B (h : panicky H (option B)) i x s x' r : p_delete_usages_with cf P h i st x = Val (s, x', r) -> any_call cf P st s
| any_rebase_with H B (h : panicky H (option B)) i j x s x' r : p_rebase_with cf P h i j st x = Val (s, x', r) -> any_call cf P st s.
Lemma any_kept cf {S} (I : LinksI S) (P : LinksP S) (Q : S -> Prop) : all_in_steps cf I P -> kept I Q ->
  forall st st', any_call cf P st st' -> Q st -> Q st'.
Proof.
  intros AS K st st' C HQ. destruct AS as [A1 A2 A3 A4 A5 A6 A7 A8 A9 A10].
  destruct C as [H h q x s x' r E|H h q ch x s x' r E|H h q x s x' r E|H B h q x s x' r E|H B h q ch x s x' r E|H B h q x s x' r E
    |H B h i j x s x' r E|H B h q x s x' r E|H B h i x s x' r E|H B h i j x s x' r E].
  - destruct (A1 q st) as (ms & st' & fin & W & AF & HE). eapply heard_kept; eauto.
  - destruct (A2 q ch st) as (ms & st' & fin & W & AF & HE). eapply heard_kept; eauto.
  - destruct (A3 q st) as (ms & st' & fin & W & AF & HE). eapply heard_kept; eauto.
  - destruct (A4 q st) as (ms & st' & fin & W & AF & HE). eapply heard_kept; eauto.
  - destruct (A5 q ch st) as (ms & st' & fin & W & AF & HE). eapply heard_kept; eauto.
  - destruct (A6 q st) as (ms & st' & fin & W & AF & HE). eapply heard_kept; eauto.
  - destruct (A7 i j st) as (ms & st' & fin & W & AF & HE). eapply heard_kept; eauto.
  - destruct (A8 q st) as (ms & st' & fin & W & AF & HE). eapply heard_kept; eauto.
  - destruct (A9 i st) as (ms & st' & fin & W & AF & HE). eapply heard_kept; eauto.
  - destruct (A10 i j st) as (ms & st' & fin & W & AF & HE). eapply heard_kept; eauto.
Qed.
Lemma L_C88_unit_kept cf tops lops ds Q st st' : kept (unit_links cf tops lops) Q ->
  any_call cf (wrapped_p cf ds (unit_panics cf tops lops)) st st' -> Q st -> Q st'.
Proof. intros K C. exact (any_kept cf _ _ Q (L_C88_unit cf tops lops ds) K st st' C). Qed.
Lemma L_C88_split_kept cf tops lops ds Q st st' : kept (split_links cf tops lops) Q ->
  any_call cf (wrapped_p cf ds (split_panics cf tops lops)) st st' -> Q st -> Q st'.
Proof. intros K C. exact (any_kept cf _ _ Q (L_C88_split cf tops lops ds) K st st' C). Qed.

(** In particular a store used with handlers that may panic is one that plain calls, with
    handlers that do nothing, lead to. *)
Inductive plainly {S} (I : LinksI S) (st : S) : S -> Prop :=
| plainly_refl : plainly I st st
| plainly_step c st1 x r st2 : plainly I st st1 -> basic I c st1 unit (fun u _ _ => (u, Continue)) tt = Val (st2, x, r) -> plainly I st st2.
Inductive anyhow (cf : cfg) {S} (P : LinksP S) (st : S) : S -> Prop :=
| anyhow_refl : anyhow cf P st st
| anyhow_step st1 st2 : anyhow cf P st st1 -> any_call cf P st1 st2 -> anyhow cf P st st2.
Lemma plainly_kept {S} (I : LinksI S) st : kept I (plainly I st).
Proof.
  split.
  - intros st1 b a st2 R [c C]. eapply plainly_step; [exact R|]. apply C.
  - intros st1 e st2 R [c C]. eapply plainly_step; [exact R|]. apply C.
Qed.
Lemma L_C88_unit_plainly cf tops lops ds st st' :
  anyhow cf (wrapped_p cf ds (unit_panics cf tops lops)) st st' -> plainly (unit_links cf tops lops) st st'.
Proof. induction 1 as [|st1 st2 A IH C]; [constructor|]. exact (L_C88_unit_kept cf tops lops ds _ st1 st2 (plainly_kept _ st) C IH). Qed.
Lemma L_C88_split_plainly cf tops lops ds st st' :
  anyhow cf (wrapped_p cf ds (split_panics cf tops lops)) st st' -> plainly (split_links cf tops lops) st st'.
Proof. induction 1 as [|st1 st2 A IH C]; [constructor|]. exact (L_C88_split_kept cf tops lops ds _ st1 st2 (plainly_kept _ st) C IH). Qed.

(** On stores of the earlier claims. *)
Lemma L_C88_unit_update cf tops lops st d q ch i s t :
  let U := unit_links cf tops lops in
  unit_env cf tops lops -> u_hist cf tops lops st d -> linked U st i -> separable U st i ->
  qget q 0 = Val i -> qget ch 1 = Val s -> qget ch 2 = Val t ->
  exists st' before, u_hist cf tops lops st' d /\ is_link U st' i s t /\ frame U st st' i /\
    forall H (h : panicky H flow) x, u_update_p cf tops h q ch st x = last_call h x before (mkLink i s t) st'.
Proof.
  intros U ENV HH LI SE Q1 Q2 Q3. destruct (L_C01_update_roundtrip cf tops lops st d q ch i s t ENV HH LI SE Q1 Q2 Q3) as (st' & b & HH' & C & L & F).
  exists st', b. split; auto. split; auto. split; auto. exact (paired_once _ _ _ _ _ (pu_update cf tops q ch st) C).
Qed.
Lemma L_C88_unit_delete cf tops lops st d q i s t :
  let U := unit_links cf tops lops in
  unit_env cf tops lops -> u_hist cf tops lops st d -> is_link U st i s t -> separable U st i -> qget q 0 = Val i ->
  exists st', u_hist cf tops lops st' (i :: d) /\ no_link U st' i /\ frame U st st' i /\
    forall H (h : panicky H flow) x, u_delete_p cf tops lops h q st x = last_call h x (mkLink i s t) nothing st'.
Proof.
  intros U ENV HH LI SE Q. destruct (L_C08_delete_removes_one cf tops lops st d q i s t ENV HH LI SE Q) as (st' & HH' & C & L & F & _).
  exists st'. split; auto. split; auto. split; auto. exact (paired_once _ _ _ _ _ (pu_delete cf tops lops q st) C).
Qed.
Lemma L_C88_unit_create cf tops lops st d H (h : panicky H flow) q x st' x' r :
  let U := unit_links cf tops lops in
  unit_env cf tops lops -> u_hist cf tops lops st d ->
  u_create_p cf lops h q st x = Val (st', x', r) ->
  u_hist cf tops lops st' d /\
  ((exists e, r = Returns (Err e) /\ x' = x /\ same_links U st st') \/
   (exists i, creates cf U st st' i /\ Val (st', x', r) = last_call h x nothing (mkLink i 0 0) st')).
Proof.
  intros U ENV HH E. destruct (u_hist_inv cf tops lops ENV st d HH) as (a & K & D).
  destruct (u_create_obs cf tops lops st d a q ENV HH K) as [(_ & _ & _ & _ & P)|[[_ F]|[(_ & _ & _ & st2 & H2 & _ & SL & F)|(_ & st2 & H2 & C2 & C)]]].
  - destruct (pu_create cf lops q st) as [(s & b & c & C & _)|[(s & e & C & _)|[[Y _]|[[Y _]|[Y _]]]]];
      try (rewrite Y in E; discriminate);
      specialize (C unit (fun u _ _ => (u, Continue)) tt); cbn in C; rewrite P in C; discriminate.
  - rewrite (paired_fails _ _ _ _ (pu_create cf lops q st) F) in E. injection E as <- <- <-. split; auto. left.
    exists (LimitReached (c_iend cf)). split; auto. split; auto. intros j. reflexivity.
  - rewrite (paired_fails _ _ _ _ (pu_create cf lops q st) F) in E. injection E as <- <- <-. split; auto. left. eauto.
  - rewrite (paired_once _ _ _ _ _ (pu_create cf lops q st) C) in E.
    assert (st' = st2) as -> by (unfold last_call in E; destruct (h x nothing _); congruence).
    split; auto. right. exists (a_next a). auto.
Qed.
Lemma L_C88_unit_delete_usages cf tops lops st d i :
  let U := unit_links cf tops lops in
  unit_env cf tops lops -> u_hist cf tops lops st d -> (forall l, user U st i l -> separable U st (l_index l)) ->
  i <> 0 -> i <> c_any cf -> (forall x, x <> i -> ~ is_link U st x i i) ->
  exists L, NoDup L /\ (forall l, In l L <-> user U st i l) /\
  forall H B (h : panicky H (option B)) x,
  match told_until h L x with
  | (x', None) => exists st' d', u_hist cf tops lops st' d' /\ removed U st st' L /\
      p_delete_usages_with cf (unit_panics cf tops lops) h i st x = Val (st', x', Returns (Ok tt))
  | (x', Some L1) => exists st' d', u_hist cf tops lops st' d' /\ removed U st st' L1 /\
      p_delete_usages_with cf (unit_panics cf tops lops) h i st x = Val (st', x', Unwinds)
  end.
Proof.
  intros U ENV HH DP N0 NA NB. uopen a K D. pose proof (uh_links_ok _ _ _ ENV) as OK.
  destruct (pg_delete_usages cf _ (unit_panics cf tops lops) _ OK (pu_delete cf tops lops) detachable st a i (spd_safe _ (e_spd cf)) K)
    as (L & ND & M & X); auto.
  { exact (visits_src cf (e_cf _ _ _ ENV) _ U _ OK (i_spq _ _ _ ENV) st a i K N0 NA). }
  { exact (visits_tgt cf (e_cf _ _ _ ENV) _ U _ OK (i_spq _ _ _ ENV) st a i K N0 NA). }
  { intros l Hl. apply (ob_sep cf _ U _ OK _ _ _ K). now apply DP. }
  exists L. split; auto. split; auto. intros H B h x. specialize (X H B h x).
  destruct (told_until h L x) as [x' [L1|]]; destruct X as (st' & a' & [_ [d' K']] & RM & E); exists st', d'; auto.
Qed.
Lemma L_C88_unit_delete_query cf tops lops st d q :
  let U := unit_links cf tops lops in
  unit_env cf tops lops -> u_hist cf tops lops st d ->
  (length q <= 3)%nat -> (length q = 2%nat -> 2 * c_iend cf <= c_tmax cf) ->
  ~ null_query (c_any cf) q -> ~ end_query (c_any cf) q ->
  (forall l, u_get_link cf st (l_index l) = Val (Some l) -> query_match (c_any cf) q l -> separable U st (l_index l)) ->
  exists L, NoDup L /\ (forall l, In l L <-> u_get_link cf st (l_index l) = Val (Some l) /\ query_match (c_any cf) q l) /\
  forall H B (h : panicky H (option B)) x,
  match told_until h L x with
  | (x', None) => exists st' d', u_hist cf tops lops st' d' /\ removed U st st' L /\
      p_delete_query_with (unit_panics cf tops lops) h q st x = Val (st', x', Returns (Ok tt))
  | (x', Some L1) => exists st' d', u_hist cf tops lops st' d' /\ removed U st st' L1 /\
      p_delete_query_with (unit_panics cf tops lops) h q st x = Val (st', x', Unwinds)
  end.
Proof.
  intros U ENV HH LQ DB NQ EQ DP. uopen a K D. pose proof (uh_links_ok _ _ _ ENV) as OK.
  destruct (g_match cf (e_cf _ _ _ ENV) _ U _ OK (i_spq _ _ _ ENV) st a q K LQ DB NQ EQ
              (fun P => separable_one_match _ U st _ P NQ DP)) as (L & V & ND & M).
  exists (rev L). split; [now apply NoDup_rev|]. split; [intros l; rewrite <- in_rev; apply M|]. intros H B h x.
  assert (X : forall l, In l L -> detachable a (l_index l)).
  { intros l Hl. apply M in Hl as [H1 H2]. apply (ob_sep cf _ U _ OK _ _ _ K). now apply DP. }
  pose proof (pg_delete_visits cf _ (unit_panics cf tops lops) _ OK (pu_delete cf tops lops) detachable st a q L (spd_safe _ (e_spd cf)) K X V ND
    (fun l Hl => proj1 (proj1 (M l) Hl)) H B h x) as Y. clear X. rename Y into X.
  destruct (told_until h (rev L) x) as [x' [L1|]]; destruct X as (st' & a' & [_ [d' K']] & RM & E); exists st', d'; auto.
Qed.
Lemma L_C88_unit_create_link cf tops lops st d s t :
  let U := unit_links cf tops lops in
  unit_env cf tops lops -> cfg_room cf -> u_hist cf tops lops st d ->
  (exists st' e, same_links U st st' /\ (exists d', u_hist cf tops lops st' d') /\
     forall H B (h : panicky H (option B)) x, p_create_link_with (unit_panics cf tops lops) h s t st x = Val (st', x, Returns (Err e))) \/
  (exists i b st1 st2, adds cf U st st1 i 0 0 /\ adds cf U st st2 i s t /\
     (exists d1, u_hist cf tops lops st1 d1) /\ (exists d2, u_hist cf tops lops st2 d2) /\
     forall H B (h : panicky H (option B)) x, p_create_link_with (unit_panics cf tops lops) h s t st x =
       match h x nothing (mkLink i 0 0) with
       | (x1, None) => Val (st1, x1, Unwinds)
       | (x1, Some _) =>
           match h x1 b (mkLink i s t) with
           | (x2, None) => Val (st2, x2, Unwinds)
           | (x2, Some o) => Val (st2, x2, Returns (Ok (flow_of o)))
           end
       end).
Proof.
  intros U ENV RM HH. uopen a K D. pose proof (uh_links_ok _ _ _ ENV) as OK.
  destruct (pg_create_link cf _ (unit_panics cf tops lops) _ OK (pu_create cf lops) (pu_update cf tops) st a s t K)
    as [(st' & e & SL & [_ K'] & X)|(i & b & st1 & st2 & A1 & A2 & (a1 & [_ K1]) & (a2 & [_ K2]) & X)].
  - exact (i_spc _ _ _ ENV RM st a K).
  - apply (det_fresh _ (e_spu cf)). exact (lo_wf _ _ _ _ OK _ _ K).
  - left. eauto.
  - right. exists i, b, st1, st2. auto.
Qed.
Lemma L_C88_split_delete_usages cf tops lops st d i :
  let SL := split_links cf tops lops in
  unit_env cf tops lops -> s_hist cf tops lops st d -> (forall l, user SL st i l -> s_okd SL st (l_index l)) ->
  linked SL st i -> (forall x, x <> i -> ~ is_link SL st x i i) ->
  exists L, NoDup L /\ (forall l, In l L <-> user SL st i l) /\
  forall H B (h : panicky H (option B)) x,
  match told_until h L x with
  | (x', None) => exists st' d', s_hist cf tops lops st' d' /\ removed SL st st' L /\
      p_delete_usages_with cf (split_panics cf tops lops) h i st x = Val (st', x', Returns (Ok tt))
  | (x', Some L1) => exists st' d', s_hist cf tops lops st' d' /\ removed SL st st' L1 /\
      p_delete_usages_with cf (split_panics cf tops lops) h i st x = Val (st', x', Unwinds)
  end.
Proof.
  intros SL ENV HH DP LI NB. shopen a K D. destruct (sh_seen cf tops lops ENV st a i K LI) as [SS TS].
  destruct (pg_delete_usages cf _ (split_panics cf tops lops) _ (sh_links_ok _ _ _ ENV) (ps_delete cf tops lops) _ st a i (sh_del_safe cf) K SS TS
              (okd_users cf tops lops ENV st a i K DP) NB) as (L & ND & M & X).
  exists L. split; auto. split; auto. intros H B h x. specialize (X H B h x).
  destruct (told_until h L x) as [x' [L1|]]; destruct X as (st' & a' & [_ [d' K']] & RM & E); exists st', d'; auto.
Qed.
Lemma L_C88_split_create_link cf tops lops st d s t :
  let SL := split_links cf tops lops in
  unit_env cf tops lops -> c_iend cf + 1 + c_step cf <= c_tmax cf -> s_hist cf tops lops st d ->
  next_unreferred SL st -> (t = 0 -> s = 0) ->
  (exists st' e, same_links SL st st' /\ (exists d', s_hist cf tops lops st' d') /\
     forall H B (h : panicky H (option B)) x, p_create_link_with (split_panics cf tops lops) h s t st x = Val (st', x, Returns (Err e))) \/
  (exists i b st1 st2, adds cf SL st st1 i 0 0 /\ adds cf SL st st2 i s t /\
     (exists d1, s_hist cf tops lops st1 d1) /\ (exists d2, s_hist cf tops lops st2 d2) /\
     forall H B (h : panicky H (option B)) x, p_create_link_with (split_panics cf tops lops) h s t st x =
       match h x nothing (mkLink i 0 0) with
       | (x1, None) => Val (st1, x1, Unwinds)
       | (x1, Some _) =>
           match h x1 b (mkLink i s t) with
           | (x2, None) => Val (st2, x2, Unwinds)
           | (x2, Some o) => Val (st2, x2, Returns (Ok (flow_of o)))
           end
       end).
Proof.
  intros SL ENV RM HH NU TS. shopen a K D. pose proof (sh_links_ok _ _ _ ENV) as OK. pose proof (lo_wf _ _ _ _ OK _ _ K) as W.
  assert (FAILS : forall st' e, fails_with (fun H h x => s_create cf tops lops h [] st x) st' e ->
    forall H B (h : panicky H (option B)) x, p_create_link_with (split_panics cf tops lops) h s t st x = Val (st', x, Returns (Err e))).
  { intros st' e F H B h x. unfold p_create_link_with, p_create_with.
    rewrite (pc_fails (split_panics cf tops lops) (ps_create cf tops lops) _ _ _ _ F). reflexivity. }
  destruct (create_ready cf tops lops ENV st a d K HH RM NU) as [[F1 F]|[(st' & N1 & N2 & F)|SC]].
  - left. exists st, (LimitReached (c_iend cf)). split; [intros j; reflexivity|]. split; [eauto|]. now apply FAILS.
  - left. exists st', AllocFailed. split; auto. split; [eauto|]. now apply FAILS.
  - destruct (pg_create_link cf _ (split_panics cf tops lops) _ OK (ps_create cf tops lops) (ps_update cf tops) st a s t K SC (fresh_update a s t W TS))
      as [(st' & e & SL' & [_ K'] & X)|(i & b & st1 & st2 & A1 & A2 & (a1 & [_ K1]) & (a2 & [_ K2]) & X)].
    + left. eauto.
    + right. exists i, b, st1, st2. auto.
Qed.

(** A handler that writes down what it is told and panics when told for the [n]th time. *)
Definition nth_panics {V} (v : V) (n : nat) : panicky (list (link * link)) V :=
  fun k b a => (k ++ [(b, a)], if Nat.ltb (length k) n then Some v else None).
(** The links 3: 1->2, 4: 2->1 and 5: 3->1 use 1; told of the second deletion the handler
    panics and the third link stays. *)
Lemma L_C88_nonvacuous : cfg_room ex_cf /\ exists st d, u_hist ex_cf ref_tree_ops ref_list_ops st d /\
  (forall l, user ex_U st 1 l -> separable ex_U st (l_index l)) /\ (forall x, x <> 1 -> ~ is_link ex_U st x 1 1) /\
  (exists st', p_delete_usages_with ex_cf (unit_panics ex_cf ref_tree_ops ref_list_ops) (nth_panics (@None unit) 1) 1 st []
       = Val (st', [(mkLink 5 3 1, nothing); (mkLink 4 2 1, nothing)], Unwinds) /\
     no_link ex_U st' 5 /\ no_link ex_U st' 4 /\ is_link ex_U st' 3 1 2 /\ is_link ex_U st' 1 1 1) /\
  (exists st', p_delete_usages_with ex_cf (unit_panics ex_cf ref_tree_ops ref_list_ops) (nth_panics (@None unit) 3) 1 st []
       = Val (st', [(mkLink 5 3 1, nothing); (mkLink 4 2 1, nothing); (mkLink 3 1 2, nothing)], Returns (Ok tt)) /\
     no_link ex_U st' 3 /\ is_link ex_U st' 1 1 1) /\
  (exists st', u_update_p ex_cf ref_tree_ops (nth_panics Continue 0) [3] [3; 2; 2] st [] = Val (st', [(mkLink 3 2 2, mkLink 3 2 2)], Unwinds) /\
     is_link ex_U st' 3 2 2) /\
  exists st', p_delete_query_with (unit_panics ex_cf ref_tree_ops ref_list_ops) (nth_panics (@None unit) 0) [200; 200; 1] st []
       = Val (st', [(mkLink 5 3 1, nothing)], Unwinds) /\
     no_link ex_U st' 5 /\ is_link ex_U st' 4 2 1.
Proof.
  split; [vm_compute; repeat split; discriminate|].
  destruct ex5_reach as (d & HH & DP & K). exists (ex_st ex5), d. sp. split; [intros; now apply distinct_separable|].
  split.
  { intros x NX L. assert (LK : linked ex_U (ex_st ex5) x) by (eexists; eauto).
    apply (ob_top ex_cf _ ex_U _ (e_ok _ _ _ ex_env) _ _ K) in LK.
    each_index LK; try contradiction; vm_compute in L; discriminate. }
  conj.
  - exists (match p_delete_usages_with ex_cf (unit_panics ex_cf ref_tree_ops ref_list_ops) (nth_panics (@None unit) 1) 1 (ex_st ex5) [] with
            Val (s, _, _) => s | _ => ex_start end). conj; vm_compute; reflexivity.
  - exists (match p_delete_usages_with ex_cf (unit_panics ex_cf ref_tree_ops ref_list_ops) (nth_panics (@None unit) 3) 1 (ex_st ex5) [] with
            Val (s, _, _) => s | _ => ex_start end). conj; vm_compute; reflexivity.
  - exists (match u_update_p ex_cf ref_tree_ops (nth_panics Continue 0) [3] [3; 2; 2] (ex_st ex5) [] with
            Val (s, _, _) => s | _ => ex_start end). conj; vm_compute; reflexivity.
  - exists (match p_delete_query_with (unit_panics ex_cf ref_tree_ops ref_list_ops) (nth_panics (@None unit) 0) [200; 200; 1] (ex_st ex5) [] with
            Val (s, _, _) => s | _ => ex_start end). conj; vm_compute; reflexivity.
Qed.
(** The decorator that deletes usages first, over both stores: the link asked for stays. *)
Lemma L_C88_wrapped_nonvacuous :
  (exists st d st', u_hist ex_cf ref_tree_ops ref_list_ops st d /\
     lp_delete (wrapped_p ex_cf [DCascadeUsages] (unit_panics ex_cf ref_tree_ops ref_list_ops)) _ (nth_panics Continue 2) [1] st []
       = Val (st', [(mkLink 5 3 1, nothing); (mkLink 4 2 1, nothing); (mkLink 3 1 2, nothing)], Unwinds) /\
     is_link ex_U st' 1 1 1 /\ no_link ex_U st' 3) /\
  (exists st d st', s_hist ex_cf ref_tree_ops ref_list_ops st d /\ distinct_pairs ex_S st /\
     linked ex_S st 1 /\ (forall x, x <> 1 -> ~ is_link ex_S st x 1 1) /\ is_link ex_S st 2 1 2 /\ is_link ex_S st 5 51 1 /\
     lp_delete (wrapped_p ex_cf [DCascadeUsages] (split_panics ex_cf ref_tree_ops ref_list_ops)) _ (nth_panics Continue 0) [1] st []
       = Val (st', [(mkLink 5 51 1, nothing)], Unwinds) /\
     no_link ex_S st' 5 /\ is_link ex_S st' 2 1 2 /\ is_link ex_S st' 1 1 1) /\
  (exists st d st1, s_hist ex_cf ref_tree_ops ref_list_ops st d /\ next_unreferred ex_S st /\
     p_create_link_with (split_panics ex_cf ref_tree_ops ref_list_ops) (nth_panics (@None unit) 1) 2 1 st []
       = Val (st1, [(nothing, mkLink 3 0 0); (mkLink 3 0 0, mkLink 3 2 1)], Unwinds) /\ is_link ex_S st1 3 2 1).
Proof.
  split; [|split].
  - destruct ex5_reach as (d & HH & DP & K). exists (ex_st ex5), d.
    exists (match lp_delete (wrapped_p ex_cf [DCascadeUsages] (unit_panics ex_cf ref_tree_ops ref_list_ops)) _ (nth_panics Continue 2) [1] (ex_st ex5) [] with
            Val (s, _, _) => s | _ => ex_start end). sp. conj; vm_compute; reflexivity.
  - destruct ex5s_reach as (d & HH & K & DP). exists (ex_sst ex5s), d.
    exists (match lp_delete (wrapped_p ex_cf [DCascadeUsages] (split_panics ex_cf ref_tree_ops ref_list_ops)) _ (nth_panics Continue 0) [1] (ex_sst ex5s) [] with
            Val (s, _, _) => s | _ => ex_sstart end). sp. sp. split; [exists 1, 1; vm_compute; reflexivity|]. split.
    + intros x NX L. assert (LK : linked ex_S (ex_sst ex5s) x) by (eexists; eauto).
      apply (ob_top ex_cf _ ex_S _ (f_ok _ _ _ ex_env) _ _ K) in LK.
      each_index LK; try contradiction; vm_compute in L; discriminate.
    + conj; vm_compute; reflexivity.
  - destruct ex5s_reach as (d & HH & K & DP). exists (ex_sst ex5s), d.
    exists (match p_create_link_with (split_panics ex_cf ref_tree_ops ref_list_ops) (nth_panics (@None unit) 1) 2 1 (ex_sst ex5s) [] with
            Val (s, _, _) => s | _ => ex_sstart end). sp.
    split; [apply (ex_next ex5s 3 K); vm_compute; reflexivity|]. conj; vm_compute; reflexivity.
Qed.
(** A method interrupted by its handler need not be undone: some of the links are gone, or a
    new link is empty. *)
Definition nothing_done {S} (I : LinksI S) (st : S) {H A} (m : out (S * H * ends A)) : Prop :=
  forall st' x', m = Val (st', x', Unwinds) -> same_links I st st'.
Lemma L_C88_all_or_nothing_refuted : exists st d, u_hist ex_cf ref_tree_ops ref_list_ops st d /\
  ~ nothing_done ex_U st (p_delete_usages_with ex_cf (unit_panics ex_cf ref_tree_ops ref_list_ops) (nth_panics (@None unit) 0) 1 st []) /\
  (exists st', p_create_link_with (unit_panics ex_cf ref_tree_ops ref_list_ops) (nth_panics (@None unit) 0) 1 1 st []
     = Val (st', [(nothing, mkLink 6 0 0)], Unwinds) /\ no_link ex_U st 6 /\ is_link ex_U st' 6 0 0).
Proof.
  destruct ex5_reach as (d & HH & DP & K). exists (ex_st ex5), d. sp. split.
  - set (m := p_delete_usages_with ex_cf (unit_panics ex_cf ref_tree_ops ref_list_ops) (nth_panics (@None unit) 0) 1 (ex_st ex5) []).
    assert (X : exists st' x', m = Val (st', x', Unwinds) /\ li_get ex_U st' 5 = Val None).
    { exists (match m with Val (s, _, _) => s | _ => ex_start end), [(mkLink 5 3 1, nothing)]. split; vm_compute; reflexivity. }
    destruct X as (st' & x' & E & G). intros ND. specialize (ND _ _ E 5). rewrite G in ND. vm_compute in ND. discriminate.
  - exists (match p_create_link_with (unit_panics ex_cf ref_tree_ops ref_list_ops) (nth_panics (@None unit) 0) 1 1 (ex_st ex5) [] with
            Val (s, _, _) => s | _ => ex_start end). conj; vm_compute; reflexivity.
Qed.
