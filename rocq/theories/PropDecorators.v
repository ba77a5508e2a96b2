(** Properties C36-C41: the decorators, over every store that obeys the store contract. *)
From Coq Require Import NArith List Bool Lia Permutation Sorted.
From Verif Require Import DecoratorClaims Base Trees Lists TreeImpl Spec Iface Doublets DoubletsOK Obs Hist Claims Decorators
  UnitModel UnitInv UnitOps UnitLinks UnitHist UnitClaims GoodStore.
Import ListNotations.
Open Scope N_scope.

(** An update to a pair held by a link fails with AlreadyExists and changes nothing; an update
    to a free pair is passed through; a store with distinct pairs keeps them through any
    sequence of operations.  Missing: an update of a link to its own pair is refused too, and
    pairs with null source are not seen (next theorem). *)
Theorem C36_unique_validator_partial :
  forall cf S (I : LinksI S) G st,
  good_store cf I G -> G st ->
  (forall q ch i j s t, real_pair cf s t -> is_link I st j s t ->
     qget q 0 = Val i -> qget ch 1 = Val s -> qget ch 2 = Val t ->
     fails_with (fun H h x => li_update (unique_validator cf I) H h q ch st x) st (AlreadyExists s t)) /\
  (forall q ch s t, real_pair cf s t -> (forall j, ~ is_link I st j s t) ->
     qget ch 1 = Val s -> qget ch 2 = Val t ->
     forall H (h : whandler H) x,
       li_update (unique_validator cf I) H h q ch st x = li_update I H h q ch st x) /\
  (distinct_pairs I st -> forall st' d,
     hist (unique_validator cf I) (fun s => s = st) (fun _ _ => False) (fun _ _ s t => real_pair cf s t) (fun _ _ => True) st' d ->
     distinct_pairs I st').
Proof. exact L_C36_unique_validator_partial. Qed.
Print Assumptions C36_unique_validator_partial.

Theorem C36_nonvacuous :
  exists st,
  good_store ex_cf ex_U (fun st => exists d, u_hist ex_cf ref_tree_ops ref_list_ops st d) /\
  (exists d, u_hist ex_cf ref_tree_ops ref_list_ops st d) /\ distinct_pairs ex_U st /\
  is_link ex_U st 2 1 2 /\ is_link ex_U st 3 2 1 /\ real_pair ex_cf 1 2 /\ (forall j, ~ is_link ex_U st j 2 2) /\
  li_update (unique_validator ex_cf ex_U) unit cont [3] [3; 1; 2] st tt = Val (st, tt, Err (AlreadyExists 1 2)) /\
  exists st', li_update (unique_validator ex_cf ex_U) unit cont [3] [3; 2; 2] st tt = Val (st', tt, Ok Continue) /\
    is_link ex_U st' 3 2 2.
Proof. exact L_C36_nonvacuous. Qed.
Print Assumptions C36_nonvacuous.

(** Updating a link to the pair it holds already is refused, and two links can get the same
    pair (0, t). *)
Theorem C36_unique_validator_refuted :
  (exists st d i s t, u_hist ex_cf ref_tree_ops ref_list_ops st d /\ distinct_pairs ex_U st /\ is_link ex_U st i s t /\
     (forall j, j <> i -> ~ is_link ex_U st j s t) /\
     li_update (unique_validator ex_cf ex_U) unit cont [i] [i; s; t] st tt = Val (st, tt, Err (AlreadyExists s t))) /\
  (exists st d i s t st', u_hist ex_cf ref_tree_ops ref_list_ops st d /\ distinct_pairs ex_U st /\
     li_update (unique_validator ex_cf ex_U) unit cont [i] [i; s; t] st tt = Val (st', tt, Ok Continue) /\
     ~ distinct_pairs ex_U st').
Proof. exact L_C36_unique_validator_refuted. Qed.
Print Assumptions C36_unique_validator_refuted.

(** Updating i to a pair held by another link j deletes i and leaves j and all others, the
    handler being told of both steps; other updates are passed through; distinct pairs
    stay distinct through any sequence of operations.  Missing: an update of a link to its own
    pair (next theorem), pairs with null source. *)
Theorem C37_unique_resolver_partial :
  forall cf S (I : LinksI S) G st,
  good_store cf I G -> G st ->
  (forall q ch i j s t s0 t0, real_pair cf s t -> distinct_pairs I st ->
     is_link I st j s t -> j <> i -> is_link I st i s0 t0 ->
     qget q 0 = Val i -> qget ch 1 = Val s -> qget ch 2 = Val t ->
     exists st' b, G st' /\
       calls_twice (fun H h x => li_update (unique_resolver cf I) H h q ch st x) st' (mkLink i s0 t0) nothing b (mkLink j s t) /\
       no_link I st' i /\ frame I st st' i) /\
  (forall q ch i s t, real_pair cf s t -> (forall j, ~ is_link I st j s t) -> linked I st i -> separable I st i ->
     qget q 0 = Val i -> qget ch 1 = Val s -> qget ch 2 = Val t ->
     exists st' b, G st' /\ calls_once (fun H h x => li_update (unique_resolver cf I) H h q ch st x) st' b (mkLink i s t) /\
       is_link I st' i s t /\ frame I st st' i) /\
  (forall q ch i s t, real_pair cf s t -> no_link I st i ->
     qget q 0 = Val i -> qget ch 1 = Val s -> qget ch 2 = Val t ->
     fails_with (fun H h x => li_update (unique_resolver cf I) H h q ch st x) st (NotExists i)) /\
  (distinct_pairs I st -> forall st' d,
     hist (unique_resolver cf I) (fun s => s = st) (fun _ _ => False) (fun _ _ s t => real_pair cf s t) (fun _ _ => True) st' d ->
     distinct_pairs I st').
Proof. exact L_C37_unique_resolver_partial. Qed.
Print Assumptions C37_unique_resolver_partial.

Theorem C37_nonvacuous :
  exists st st',
  good_store ex_cf ex_U (fun st => exists d, u_hist ex_cf ref_tree_ops ref_list_ops st d) /\
  (exists d, u_hist ex_cf ref_tree_ops ref_list_ops st d) /\ distinct_pairs ex_U st /\
  is_link ex_U st 2 1 2 /\ is_link ex_U st 3 2 1 /\ real_pair ex_cf 1 2 /\
  li_update (unique_resolver ex_cf ex_U) unit cont [3] [3; 1; 2] st tt = Val (st', tt, Ok Continue) /\
  no_link ex_U st' 3 /\ is_link ex_U st' 2 1 2.
Proof. exact L_C37_nonvacuous. Qed.
Print Assumptions C37_nonvacuous.

(** Updating any link to the pair it holds already deletes it and fails. *)
Theorem C37_unique_resolver_own_pair :
  forall cf S (I : LinksI S) G st q ch i s t,
  good_store cf I G -> G st -> real_pair cf s t -> distinct_pairs I st -> is_link I st i s t ->
  qget q 0 = Val i -> qget ch 1 = Val s -> qget ch 2 = Val t ->
  exists st', G st' /\ no_link I st' i /\ frame I st st' i /\
    forall H (h : whandler H) x, li_update (unique_resolver cf I) H h q ch st x =
      Val (st', fst (h x (mkLink i s t) nothing), Err (NotExists i)).
Proof. exact L_C37_unique_resolver_own_pair. Qed.
Print Assumptions C37_unique_resolver_own_pair.

Theorem C37_unique_resolver_refuted :
  exists st d st',
  u_hist ex_cf ref_tree_ops ref_list_ops st d /\ distinct_pairs ex_U st /\ is_link ex_U st 2 1 2 /\
  (forall j, j <> 2 -> ~ is_link ex_U st j 1 2) /\
  li_update (unique_resolver ex_cf ex_U) unit cont [2] [2; 1; 2] st tt = Val (st', tt, Err (NotExists 2)) /\
  no_link ex_U st' 2.
Proof. exact L_C37_unique_resolver_refuted. Qed.
Print Assumptions C37_unique_resolver_refuted.

(** Delete of a link used by another one fails with HasUsages, listing exactly the users, and
    changes nothing; otherwise it deletes that link only, and afterwards no link refers to it. *)
Theorem C38_usages_validator :
  forall cf S (I : LinksI S) G st q i,
  good_store cf I G -> G st -> qget q 0 = Val i ->
  (forall l, linked I st i -> user I st i l ->
     exists L, (forall k, In k L <-> user I st i k) /\
       fails_with (fun H h x => li_delete (usages_validator cf I) H h q st x) st (HasUsages L)) /\
  (forall s t, is_link I st i s t -> separable I st i -> (forall l, ~ user I st i l) ->
     exists st', G st' /\
       calls_once (fun H h x => li_delete (usages_validator cf I) H h q st x) st' (mkLink i s t) nothing /\
       no_link I st' i /\ frame I st st' i /\
       forall j s' t', is_link I st' j s' t' -> s' <> i /\ t' <> i) /\
  (no_link I st i -> fails_with (fun H h x => li_delete (usages_validator cf I) H h q st x) st (NotExists i)).
Proof. exact L_C38_usages_validator. Qed.
Print Assumptions C38_usages_validator.

Theorem C38_nonvacuous :
  exists st st' L,
  good_store ex_cf ex_U (fun st => exists d, u_hist ex_cf ref_tree_ops ref_list_ops st d) /\
  (exists d, u_hist ex_cf ref_tree_ops ref_list_ops st d) /\ distinct_pairs ex_U st /\
  is_link ex_U st 2 1 2 /\ is_link ex_U st 3 2 1 /\
  li_delete (usages_validator ex_cf ex_U) unit cont [2] st tt = Val (st, tt, Err (HasUsages L)) /\ L = [mkLink 3 2 1] /\
  li_delete (usages_validator ex_cf ex_U) unit cont [3] st tt = Val (st', tt, Ok Continue) /\ no_link ex_U st' 3.
Proof. exact L_C38_nonvacuous. Qed.
Print Assumptions C38_nonvacuous.

(** Updates of used links are refused in the same way. *)
Theorem C38_updates_refused_too :
  forall cf S (I : LinksI S) G st q ch i l,
  good_store cf I G -> G st -> qget q 0 = Val i -> linked I st i -> user I st i l ->
  exists L, (forall k, In k L <-> user I st i k) /\
    fails_with (fun H h x => li_update (usages_validator cf I) H h q ch st x) st (HasUsages L).
Proof. exact L_C38_updates_refused_too. Qed.
Print Assumptions C38_updates_refused_too.

(** A delete removes exactly that link; the handler is told first of the update to (0, 0) and
    then of the deletion of the null link. *)
Theorem C39_non_null_deletion :
  forall cf S (I : LinksI S) G st q i,
  good_store cf I G -> G st -> qget q 0 = Val i ->
  (linked I st i -> separable I st i -> exists st' b, G st' /\
     calls_twice (fun H h x => li_delete (non_null_deletion_resolver cf I) H h q st x) st'
       b (mkLink i 0 0) (mkLink i 0 0) nothing /\
     no_link I st' i /\ frame I st st' i) /\
  (no_link I st i -> fails_with (fun H h x => li_delete (non_null_deletion_resolver cf I) H h q st x) st (NotExists i)).
Proof. exact L_C39_non_null_deletion. Qed.
Print Assumptions C39_non_null_deletion.

Theorem C39_nonvacuous :
  exists st st',
  good_store ex_cf ex_U (fun st => exists d, u_hist ex_cf ref_tree_ops ref_list_ops st d) /\
  (exists d, u_hist ex_cf ref_tree_ops ref_list_ops st d) /\ distinct_pairs ex_U st /\ is_link ex_U st 2 1 2 /\
  li_delete (non_null_deletion_resolver ex_cf ex_U) (list (link * link)) (fun l b a => (l ++ [(b, a)], Continue)) [2] st []
    = Val (st', [(mkLink 2 0 0, mkLink 2 0 0); (mkLink 2 0 0, nothing)], Ok Continue) /\
  no_link ex_U st' 2.
Proof. exact L_C39_nonvacuous. Qed.
Print Assumptions C39_nonvacuous.

(** A delete of i, where no other link has i at both ends, deletes i and the links that use it,
    and nothing else; afterwards no link refers to i.  Missing: the users of the users
    (and links with i at both ends), see the next theorems. *)
Theorem C40_cascade_usages_partial :
  forall cf S (I : LinksI S) G st q i s t,
  good_store cf I G -> G st -> qget q 0 = Val i -> is_link I st i s t ->
  separable I st i -> (forall l, user I st i l -> separable I st (l_index l)) ->
  (forall x, x <> i -> ~ is_link I st x i i) ->
  exists st' L, G st' /\ (forall l, In l L <-> user I st i l) /\ removed I st st' (mkLink i s t :: L) /\
    (forall H (h : whandler H) x, exists x' f,
       li_delete (cascade_usages_resolver cf I) H h q st x = Val (st', x', Ok f)) /\
    forall j s' t', is_link I st' j s' t' -> s' <> i /\ t' <> i.
Proof. exact L_C40_cascade_usages_partial. Qed.
Print Assumptions C40_cascade_usages_partial.

Theorem C40_nonvacuous :
  exists st st',
  good_store ex_cf ex_U (fun st => exists d, u_hist ex_cf ref_tree_ops ref_list_ops st d) /\
  (exists d, u_hist ex_cf ref_tree_ops ref_list_ops st d) /\ distinct_pairs ex_U st /\
  is_link ex_U st 2 1 2 /\ is_link ex_U st 3 2 1 /\ (forall x, x <> 2 -> ~ is_link ex_U st x 2 2) /\
  li_delete (cascade_usages_resolver ex_cf ex_U) unit cont [2] st tt = Val (st', tt, Ok Continue) /\
  no_link ex_U st' 2 /\ no_link ex_U st' 3 /\ is_link ex_U st' 1 1 1.
Proof. exact L_C40_nonvacuous. Qed.
Print Assumptions C40_nonvacuous.

(** Whenever another link has i at both ends, the delete fails. *)
Theorem C40_cascade_usages_double :
  forall cf S (I : LinksI S) G st q i x,
  good_store cf I G -> G st -> qget q 0 = Val i -> linked I st i -> (forall l, user I st i l -> separable I st (l_index l)) ->
  x <> i -> is_link I st x i i ->
  exists st', G st' /\ li_delete (cascade_usages_resolver cf I) unit cont q st tt = Val (st', tt, Err (NotExists x)).
Proof. exact L_C40_cascade_usages_double. Qed.
Print Assumptions C40_cascade_usages_double.

(** The users of a deleted user are left dangling, and a link with i at both ends makes the
    delete fail. *)
Theorem C40_cascade_usages_refuted :
  (exists st d st', u_hist ex_cf ref_tree_ops ref_list_ops st d /\ distinct_pairs ex_U st /\
     (forall x, x <> 2 -> ~ is_link ex_U st x 2 2) /\
     li_delete (cascade_usages_resolver ex_cf ex_U) unit cont [2] st tt = Val (st', tt, Ok Continue) /\
     exists j s t, is_link ex_U st' j s t /\ is_link ex_U st j s t /\ linked ex_U st s /\ no_link ex_U st' s) /\
  (exists st d st', u_hist ex_cf ref_tree_ops ref_list_ops st d /\ distinct_pairs ex_U st /\ linked ex_U st 1 /\
     li_delete (cascade_usages_resolver ex_cf ex_U) unit cont [1] st tt = Val (st', tt, Err (NotExists 2)) /\
     linked ex_U st' 1).
Proof. exact L_C40_cascade_usages_refuted. Qed.
Print Assumptions C40_cascade_usages_refuted.

(** Updating i to a pair (s, t) held by another link j redirects the usages of i to j and
    deletes i, provided neither s nor t is i, no other link has i at both ends and redirecting
    makes no duplicate pairs; an update to a free pair is passed through. *)
Theorem C41_cascade_unique_partial :
  forall cf S (I : LinksI S) G st q ch i s t,
  good_store cf I G -> G st -> real_pair cf s t ->
  qget q 0 = Val i -> qget ch 1 = Val s -> qget ch 2 = Val t ->
  (forall j, distinct_pairs I st -> linked I st i -> is_link I st j s t -> j <> i -> s <> i -> t <> i ->
     (forall x, x <> i -> ~ is_link I st x i i) ->
     (forall k k' s t, moved I st i j k s t -> moved I st i j k' s t -> (s, t) <> (0, 0) -> k = k') ->
     exists st', G st' /\ no_link I st' i /\
       (forall k s' t', k <> i -> (is_link I st' k s' t' <-> moved I st i j k s' t')) /\
       forall H (h : whandler H) x, exists x' f,
         li_update (cascade_unique_resolver cf I) H h q ch st x = Val (st', x', Ok f)) /\
  ((forall j, ~ is_link I st j s t) -> linked I st i -> separable I st i ->
     exists st' b, G st' /\
       calls_once (fun H h x => li_update (cascade_unique_resolver cf I) H h q ch st x) st' b (mkLink i s t) /\
       is_link I st' i s t /\ frame I st st' i) /\
  (no_link I st i -> fails_with (fun H h x => li_update (cascade_unique_resolver cf I) H h q ch st x) st (NotExists i)).
Proof. exact L_C41_cascade_unique_partial. Qed.
Print Assumptions C41_cascade_unique_partial.

Theorem C41_nonvacuous :
  exists st st',
  good_store ex_cf ex_U (fun st => exists d, u_hist ex_cf ref_tree_ops ref_list_ops st d) /\
  (exists d, u_hist ex_cf ref_tree_ops ref_list_ops st d) /\ distinct_pairs ex_U st /\
  is_link ex_U st 2 1 2 /\ is_link ex_U st 3 2 1 /\ is_link ex_U st 4 3 4 /\
  (forall x, x <> 3 -> ~ is_link ex_U st x 3 3) /\
  (forall k k' s t, moved ex_U st 3 2 k s t -> moved ex_U st 3 2 k' s t -> (s, t) <> (0, 0) -> k = k') /\
  li_update (cascade_unique_resolver ex_cf ex_U) unit cont [3] [3; 1; 2] st tt = Val (st', tt, Ok Continue) /\
  no_link ex_U st' 3 /\ is_link ex_U st' 2 1 2 /\ is_link ex_U st' 4 2 4.
Proof. exact L_C41_nonvacuous. Qed.
Print Assumptions C41_nonvacuous.

(** Updating a link to its own pair deletes it, and if j itself refers to i, its reference is
    restored after i was deleted. *)
Theorem C41_cascade_unique_refuted :
  (exists st d st', u_hist ex_cf ref_tree_ops ref_list_ops st d /\ distinct_pairs ex_U st /\ is_link ex_U st 2 1 2 /\
     li_update (cascade_unique_resolver ex_cf ex_U) unit cont [2] [2; 1; 2] st tt = Val (st', tt, Err (NotExists 2)) /\
     no_link ex_U st' 2) /\
  (exists st d st', u_hist ex_cf ref_tree_ops ref_list_ops st d /\ distinct_pairs ex_U st /\
     is_link ex_U st 2 1 2 /\ is_link ex_U st 3 2 1 /\
     li_update (cascade_unique_resolver ex_cf ex_U) unit cont [2] [2; 2; 1] st tt = Val (st', tt, Ok Continue) /\
     is_link ex_U st' 3 2 1 /\ no_link ex_U st' 2).
Proof. exact L_C41_cascade_unique_refuted. Qed.
Print Assumptions C41_cascade_unique_refuted.
