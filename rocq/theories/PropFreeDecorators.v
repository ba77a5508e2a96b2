(** Decorators over a two-memory store that is used freely (C98). *)
From Coq Require Import NArith List Bool Lia Permutation Sorted.
From Verif Require Import FreeDecorators Base Trees Lists TreeInv Spec Iface UnitModel UnitInv UnitOps LinkModel SplitModel Forest
  SplitInv SplitReads SplitOps SplitWrites SplitLinks Doublets DoubletsOK Obs Hist Claims UnitHist TreeImpl SplitHist
  Decorators GoodStore DecoratorClaims Stacks SplitDecorators SplitLife SplitFree.
From Verif Require CrashDefaults.
Import CrashDefaults(is_at, NoDup_map_of).
From Verif Require Import FreeDefaults FreeRebase.
Import ListNotations.
Open Scope N_scope.

(** UniqueValidator refuses a pair only if a link has it, and lets it pass only if all links that have it are
    misfiled (for sources that are links). *)
Theorem C98_unique_validator_partial :
  forall cf tops lops st Ms Mt i s t,
  let S := split_links cf tops lops in let V := unique_validator cf S in
  unit_env cf tops lops -> slife cf tops lops st Ms Mt -> linked S st s -> t <> 0 -> t <> c_any cf ->
  ((exists j, is_link S st j s t) /\ fails_with (fun H h x => li_update V H h [i] [i; s; t] st x) st (AlreadyExists s t)) \/
  ((forall j, is_link S st j s t -> Ms j \/ Mt j) /\
   forall H (h : whandler H) x, li_update V H h [i] [i; s; t] st x = li_update S H h [i] [i; s; t] st x).
Proof. exact L_C98_unique_validator_partial. Qed.
Print Assumptions C98_unique_validator_partial.

(** UniqueResolver: the pair is with no link, with another link, or with the link itself. *)
Theorem C98_unique_resolver_partial :
  forall cf tops lops st Ms Mt i s t,
  let S := split_links cf tops lops in let V := unique_resolver cf S in
  unit_env cf tops lops -> slife cf tops lops st Ms Mt -> full_pair cf s t ->
  (forall s0 t0, is_link S st i s0 t0 -> ~ Ms i -> ~ Mt i -> (forall j, separable S st j) ->
     (forall j, is_link S st j s t -> ~ Ms j /\ ~ Mt j) ->
     ((forall j, ~ is_link S st j s t) -> exists st', is_link S st' i s t /\ frame S st st' i /\
        slife cf tops lops st' (fun j => Ms j \/ (j = i /\ s = i /\ s0 <> 0)) (fun j => Mt j \/ (j = i /\ t = i /\ s0 <> 0)) /\
        calls_once (fun H h x => li_update V H h [i] [i; s; t] st x) st' (mkLink i s0 t0) (mkLink i s t)) /\
     (forall j, is_link S st j s t -> j <> i -> exists st', no_link S st' i /\ frame S st st' i /\
        slife cf tops lops st' (fun k => Ms k /\ (forall v, ~ is_link S st k i v) \/ k = j /\ s = j)
          (fun k => Mt k /\ (forall v, ~ is_link S st k v i) \/ k = j /\ t = j) /\
        calls_twice (fun H h x => li_update V H h [i] [i; s; t] st x) st' (mkLink i s0 t0) nothing (mkLink j s t) (mkLink j s t)) /\
     ((s0, t0) = (s, t) -> exists st', no_link S st' i /\ frame S st st' i /\
        forall H (h : whandler H) x, li_update V H h [i] [i; s; t] st x = Val (st', fst (h x (mkLink i s t) nothing), Err (NotExists i)))) /\
  (no_link S st i -> fails_with (fun H h x => li_update V H h [i] [i; s; t] st x) st (NotExists i)).
Proof. exact L_C98_unique_resolver_partial. Qed.
Print Assumptions C98_unique_resolver_partial.

(** UsagesValidator refuses if the store finds users, and lets the call pass if the users there are are misfiled. *)
Theorem C98_usages_validator_partial :
  forall cf tops lops st Ms Mt i,
  let S := split_links cf tops lops in let V := usages_validator cf S in
  unit_env cf tops lops -> cfg_room cf -> slife cf tops lops st Ms Mt ->
  (forall s t, is_link S st i s t -> (s = i -> ~ Ms i) -> (t = i -> ~ Mt i) ->
     ((exists l, seen_user S st Ms Mt i l) -> exists L, (forall l, In l L <-> seen_user S st Ms Mt i l) /\
        fails_with (fun H h x => li_delete V H h [i] st x) st (HasUsages L) /\
        forall x y, fails_with (fun H h z => li_update V H h [i] [i; x; y] st z) st (HasUsages L)) /\
     ((forall l, ~ seen_user S st Ms Mt i l) -> forall H (h : whandler H) z,
        li_delete V H h [i] st z = li_delete S H h [i] st z /\
        forall x y, li_update V H h [i] [i; x; y] st z = li_update S H h [i] [i; x; y] st z)) /\
  (no_link S st i -> fails_with (fun H h x => li_delete V H h [i] st x) st (NotExists i) /\
     forall x y, fails_with (fun H h z => li_update V H h [i] [i; x; y] st z) st (NotExists i)).
Proof. exact L_C98_usages_validator_partial. Qed.
Print Assumptions C98_usages_validator_partial.

(** NonNullDeletionResolver empties the link, then deletes it. *)
Theorem C98_non_null_deletion_partial :
  forall cf tops lops st Ms Mt i,
  let S := split_links cf tops lops in let V := non_null_deletion_resolver cf S in
  unit_env cf tops lops -> slife cf tops lops st Ms Mt ->
  (forall s t, is_link S st i s t -> ~ Ms i -> ~ Mt i -> (forall j, separable S st j) ->
     exists st', no_link S st' i /\ frame S st st' i /\
       slife cf tops lops st' (fun j => Ms j /\ forall v, ~ is_link S st j i v) (fun j => Mt j /\ forall v, ~ is_link S st j v i) /\
       calls_twice (fun H h x => li_delete V H h [i] st x) st' (mkLink i s t) (mkLink i 0 0) (mkLink i 0 0) nothing) /\
  (no_link S st i -> fails_with (fun H h x => li_delete V H h [i] st x) st (NotExists i)).
Proof. exact L_C98_non_null_deletion_partial. Qed.
Print Assumptions C98_non_null_deletion_partial.

(** CascadeUsagesResolver deletes the users the store finds, then the link. *)
Theorem C98_cascade_usages_partial :
  forall cf tops lops st Ms Mt i s t,
  let S := split_links cf tops lops in let V := cascade_usages_resolver cf S in
  unit_env cf tops lops -> slife cf tops lops st Ms Mt -> is_link S st i s t -> ~ Ms i -> ~ Mt i -> (forall j, separable S st j) ->
  (forall l, seen_user S st Ms Mt i l -> ~ Ms (l_index l) /\ ~ Mt (l_index l)) -> (forall x, x <> i -> ~ is_link S st x i i) ->
  exists st' W, NoDup W /\ (forall l, In l W <-> seen_user S st Ms Mt i l) /\ removed S st st' (mkLink i s t :: W) /\
    slife cf tops lops st' (left_s S st Ms (mkLink i s t :: W)) (left_t S st Mt (mkLink i s t :: W)) /\
    forall H (h : whandler H) x, let y := told (uw_of h) W x in
      li_delete V H h [i] st x = Val (st', fst (h y (mkLink i s t) nothing), Ok (snd (h y (mkLink i s t) nothing))).
Proof. exact L_C98_cascade_usages_partial. Qed.
Print Assumptions C98_cascade_usages_partial.

(** CascadeUniqueResolver: if another link has the pair, the users of the link that the store finds are turned to that
    one, and the link is deleted. *)
Theorem C98_cascade_unique_partial :
  forall cf tops lops st Ms Mt i s t,
  let S := split_links cf tops lops in let V := cascade_unique_resolver cf S in
  unit_env cf tops lops -> slife cf tops lops st Ms Mt -> full_pair cf s t ->
  (forall s0 t0, is_link S st i s0 t0 -> ~ Ms i -> ~ Mt i -> (forall j, separable S st j) ->
     (forall j, is_link S st j s t -> ~ Ms j /\ ~ Mt j) ->
     ((forall j, ~ is_link S st j s t) -> exists st', is_link S st' i s t /\ frame S st st' i /\
        slife cf tops lops st' (fun j => Ms j \/ (j = i /\ s = i /\ s0 <> 0)) (fun j => Mt j \/ (j = i /\ t = i /\ s0 <> 0)) /\
        calls_once (fun H h x => li_update V H h [i] [i; s; t] st x) st' (mkLink i s0 t0) (mkLink i s t)) /\
     (forall j, is_link S st j s t -> j <> i -> s <> i -> t <> i ->
        (forall l, seen_user S st Ms Mt i l -> ~ Ms (l_index l) /\ ~ Mt (l_index l)) -> (forall x, x <> i -> ~ is_link S st x i i) ->
        (forall l, seen_user S st Ms Mt i l -> forall k, ~ is_link S st k (l_source (rebased i j l)) (l_target (rebased i j l))) ->
        exists st' W, NoDup W /\ (forall l, In l W <-> seen_user S st Ms Mt i l) /\ no_link S st' i /\
          (forall w, In w W -> li_get S st' (l_index w) = Val (Some (rebased i j w))) /\
          (forall k, k <> i -> ~ In k (map l_index W) -> li_get S st' k = li_get S st k) /\
          (exists Ms' Mt', slife cf tops lops st' Ms' Mt' /\
             (forall k, Ms' k <-> more_s i j (fun k => Ms k /\ forall v, ~ is_link S st k i v) W k \/ k = j /\ s = j) /\
             (forall k, Mt' k <-> more_t i j (fun k => Mt k /\ forall v, ~ is_link S st k v i) W k \/ k = j /\ t = j)) /\
          forall H (h : whandler H) x, let y := fst (h (told_turned (uw_of h) i j W x) (mkLink i s0 t0) nothing) in
            li_update V H h [i] [i; s; t] st x =
              Val (st', fst (h y (mkLink j s t) (mkLink j s t)), Ok (snd (h y (mkLink j s t) (mkLink j s t)))))) /\
  (no_link S st i -> fails_with (fun H h x => li_update V H h [i] [i; s; t] st x) st (NotExists i)).
Proof. exact L_C98_cascade_unique_partial. Qed.
Print Assumptions C98_cascade_unique_partial.

(** A case for all of the claims. *)
Theorem C98_nonvacuous :
  cfg_room ex_cf /\ exists st Ms Mt, slife ex_cf ref_tree_ops ref_list_ops st Ms Mt /\ Ms 1 /\ Mt 1 /\
  is_link ex_S st 1 3 3 /\ is_link ex_S st 2 2 1 /\ is_link ex_S st 3 3 2 /\ is_link ex_S st 4 0 0 /\ is_link ex_S st 5 1 4 /\
  (forall j, separable ex_S st j) /\ full_pair ex_cf 2 1 /\ (forall j, is_link ex_S st j 2 1 -> ~ Ms j /\ ~ Mt j) /\
  ~ Ms 4 /\ ~ Mt 4 /\ ~ Ms 2 /\ ~ Mt 2 /\
  (forall l, seen_user ex_S st Ms Mt 4 l <-> l = mkLink 5 1 4) /\ (forall l, seen_user ex_S st Ms Mt 2 l <-> l = mkLink 3 3 2) /\
  (forall x, ~ is_link ex_S st x 4 4) /\ (forall x, ~ is_link ex_S st x 2 2) /\
  (forall l, seen_user ex_S st Ms Mt 4 l -> forall k, ~ is_link ex_S st k (l_source (rebased 4 2 l)) (l_target (rebased 4 2 l))) /\
  li_update (unique_validator ex_cf ex_S) unit cont [4] [4; 2; 1] st tt = Val (st, tt, Err (AlreadyExists 2 1)) /\
  (exists st', li_update (unique_resolver ex_cf ex_S) _ record_calls [4] [4; 2; 1] st [] =
     Val (st', [(mkLink 4 0 0, nothing); (mkLink 2 2 1, mkLink 2 2 1)], Ok Continue) /\ no_link ex_S st' 4 /\ is_link ex_S st' 5 1 4) /\
  li_delete (usages_validator ex_cf ex_S) unit cont [4] st tt = Val (st, tt, Err (HasUsages [mkLink 5 1 4])) /\
  (exists st', li_delete (non_null_deletion_resolver ex_cf ex_S) _ record_calls [2] st [] =
     Val (st', [(mkLink 2 2 1, mkLink 2 0 0); (mkLink 2 0 0, nothing)], Ok Continue) /\ no_link ex_S st' 2 /\ is_link ex_S st' 3 3 2) /\
  (exists st', li_delete (cascade_usages_resolver ex_cf ex_S) _ record_calls [2] st [] =
     Val (st', [(mkLink 3 3 2, nothing); (mkLink 2 2 1, nothing)], Ok Continue) /\ no_link ex_S st' 3 /\ no_link ex_S st' 2) /\
  (exists st', li_update (cascade_unique_resolver ex_cf ex_S) _ record_calls [4] [4; 2; 1] st [] =
     Val (st', [(mkLink 5 1 4, mkLink 5 1 2); (mkLink 4 0 0, nothing); (mkLink 2 2 1, mkLink 2 2 1)], Ok Continue) /\
     no_link ex_S st' 4 /\ is_link ex_S st' 5 1 2).
Proof. exact L_C98_nonvacuous. Qed.
Print Assumptions C98_nonvacuous.

(** What the decorators are for is not kept: the pair of a misfiled link is given to another link by each of the three
    decorators for unique pairs, and a link with a misfiled user is deleted by both decorators that look at users. *)
Theorem C98_refuted :
  exists st Ms Mt, slife ex_cf ref_tree_ops ref_list_ops st Ms Mt /\ (forall j, separable ex_S st j) /\
  is_link ex_S st 1 3 3 /\ is_link ex_S st 2 2 1 /\ linked ex_S st 3 /\
  (exists st', li_update (unique_validator ex_cf ex_S) unit cont [2] [2; 3; 3] st tt = Val (st', tt, Ok Continue) /\
     is_link ex_S st' 1 3 3 /\ is_link ex_S st' 2 3 3) /\
  (exists st', li_update (unique_resolver ex_cf ex_S) unit cont [2] [2; 3; 3] st tt = Val (st', tt, Ok Continue) /\
     is_link ex_S st' 1 3 3 /\ is_link ex_S st' 2 3 3) /\
  (exists st', li_update (cascade_unique_resolver ex_cf ex_S) unit cont [2] [2; 3; 3] st tt = Val (st', tt, Ok Continue) /\
     is_link ex_S st' 1 3 3 /\ is_link ex_S st' 2 3 3) /\
  (exists st', li_delete (usages_validator ex_cf ex_S) unit cont [3] st tt = Val (st', tt, Ok Continue) /\
     no_link ex_S st' 3 /\ is_link ex_S st' 1 3 3) /\
  (exists st', li_delete (cascade_usages_resolver ex_cf ex_S) unit cont [3] st tt = Val (st', tt, Ok Continue) /\
     no_link ex_S st' 3 /\ is_link ex_S st' 1 3 3).
Proof. exact L_C98_refuted. Qed.
Print Assumptions C98_refuted.
