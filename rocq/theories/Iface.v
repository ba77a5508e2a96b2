(** The [Links] interface (doublets/src/data/traits.rs:16-35) as a record of functions, and
    what it means for an implementation to behave like the abstract store of Spec.v. *)
From Coq Require Import NArith List Bool Lia.
From Verif Require Import Base Spec.
Import ListNotations.
Open Scope N_scope.

(** traits.rs:16-35 and [get_link], traits.rs:251.  Handlers get the caller's state
    threaded through; reads do not change the store ([&self]). *)
Record LinksI (S : Type) := mkLinksI {
  li_count : S -> list N -> out N;
  li_create : forall H, whandler H -> list N -> S -> H -> out (S * H * result flow);
  li_each : forall H, rhandler H -> list N -> S -> H -> out (H * flow);
  li_update : forall H, whandler H -> list N -> list N -> S -> H -> out (S * H * result flow);
  li_delete : forall H, whandler H -> list N -> S -> H -> out (S * H * result flow);
  li_get : S -> N -> out (option link)
}.
Arguments li_count {S}. Arguments li_create {S}. Arguments li_each {S}.
Arguments li_update {S}. Arguments li_delete {S}. Arguments li_get {S}.

(** A modifying call seen as a function of the handler. *)
Definition wcall (S : Type) := forall H, whandler H -> H -> out (S * H * result flow).

(** The call succeeds, calls the handler once with [before] and [after], and passes on
    its verdict. *)
Definition calls_once {S} (f : wcall S) (st' : S) (before after : link) : Prop :=
  forall H (h : whandler H) x,
    f H h x = Val (st', fst (h x before after), Ok (snd (h x before after))).

(** The call fails without calling the handler. *)
Definition fails_with {S} (f : wcall S) (st' : S) (e : error) : Prop :=
  forall H (h : whandler H) x, f H h x = Val (st', x, Err e).

(** The internal range is exhausted. *)
Definition a_full (cf : cfg) (a : astate) : Prop := a_free a = [] /\ c_iend cf <= a_top a.

(** Preconditions under which an implementation promises to follow the abstract store. *)
Record store_spec := mkSpec {
  sp_create : astate -> Prop;
  sp_update : astate -> N -> N -> N -> Prop;
  sp_delete : astate -> N -> Prop;
  sp_query : astate -> list N -> Prop
}.

Record links_ok (cf : cfg) (sp : store_spec) {S} (I : LinksI S) (R : S -> astate -> Prop) : Prop := {
  lo_wf : forall st a, R st a -> awf a;
  lo_iend : forall st a, R st a -> a_top a <= c_iend cf;
  lo_get : forall st a i, R st a -> li_get I st i = Val (olink i (a_map a i));
  lo_query : forall st a q, R st a -> sp_query sp a q ->
    exists L, visits_ok (c_any cf) q a L /\
      (forall H (h : rhandler H) x, li_each I H h q st x = Val (run_handler h L x)) /\
      li_count I st q = Val (N.of_nat (length L));
  lo_update : forall st a q ch i s t, R st a ->
    qget q 0 = Val i -> qget ch 1 = Val s -> qget ch 2 = Val t ->
    a_map a i <> None -> sp_update sp a i s t ->
    exists st' before, R st' (a_update a i s t) /\
      calls_once (fun H h x => li_update I H h q ch st x) st' before (mkLink i s t);
  lo_update_none : forall st a q ch i s t, R st a ->
    qget q 0 = Val i -> qget ch 1 = Val s -> qget ch 2 = Val t ->
    a_map a i = None ->
    fails_with (fun H h x => li_update I H h q ch st x) st (NotExists i);
  lo_delete : forall st a q i s t, R st a ->
    qget q 0 = Val i -> a_map a i = Some (s, t) -> sp_delete sp a i ->
    exists st', R st' (a_delete a i) /\
      calls_once (fun H h x => li_delete I H h q st x) st' (mkLink i s t) nothing;
  lo_delete_none : forall st a q i, R st a -> qget q 0 = Val i -> a_map a i = None ->
    fails_with (fun H h x => li_delete I H h q st x) st (NotExists i);
  lo_create : forall st a q, R st a -> sp_create sp a ->
    (a_full cf a /\ fails_with (fun H h x => li_create I H h q st x) st (LimitReached (c_iend cf))) \/
    (~ a_full cf a /\ a_free a = [] /\ exists st', R st' a /\
       fails_with (fun H h x => li_create I H h q st x) st' AllocFailed) \/
    (~ a_full cf a /\ exists st', R st' (a_create a) /\
       calls_once (fun H h x => li_create I H h q st x) st' nothing (mkLink (a_next a) 0 0))
}.
