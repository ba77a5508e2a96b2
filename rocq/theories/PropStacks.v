(** Properties of the default methods on decorated stores and of stacks of decorators (C73, C74). *)
From Coq Require Import NArith List Bool Lia.
From Verif Require Import Stacks Base Trees Lists TreeImpl Spec Iface Doublets DoubletsOK Obs Hist Claims Decorators
  UnitModel UnitInv UnitOps UnitLinks UnitHist UnitClaims GoodStore DecoratorClaims.
Import ListNotations.
Open Scope N_scope.

(** Through UniqueResolver, create_link, get_or_create and update return the link that holds the
    pair afterwards: the present holder, the others being left alone, or else the new or updated
    link.  create_point gives a new point if no link refers to a missing one. *)
Theorem C73_unique_resolver :
  forall cf S (I : LinksI S) G st,
  good_store cf I G -> G st -> distinct_pairs I st ->
  let D := unique_resolver cf I in
  (forall j s t, real_pair cf s t -> is_link I st j s t ->
     (not_created I st (d_create_link D s t st) \/
      exists st', G st' /\ same_links I st st' /\ d_create_link D s t st = Val (st', Ok j)) /\
     d_get_or_create cf D s t st = Val (st, Ok j) /\
     (forall i, linked I st i -> i <> j ->
        exists st', G st' /\ no_link I st' i /\ frame I st st' i /\ d_update D i s t st = Val (st', Ok j))) /\
  (forall s t, real_pair cf s t -> (forall j, ~ is_link I st j s t) ->
     (not_created I st (d_create_link D s t st) \/
      exists st' n, G st' /\ adds cf I st st' n s t /\ d_create_link D s t st = Val (st', Ok n)) /\
     d_get_or_create cf D s t st = d_create_link D s t st /\
     (forall i, linked I st i ->
        exists st', G st' /\ is_link I st' i s t /\ frame I st st' i /\ d_update D i s t st = Val (st', Ok i))) /\
  (closed I st ->
     not_created I st (d_create_point D st) \/
     exists st' n, G st' /\ adds cf I st st' n n n /\ d_create_point D st = Val (st', Ok n)).
Proof. exact L_C73_unique_resolver. Qed.
Print Assumptions C73_unique_resolver.

(** Through UniqueValidator, the same for free pairs.  Missing: held pairs, next theorem. *)
Theorem C73_unique_validator_partial :
  forall cf S (I : LinksI S) G st,
  good_store cf I G -> G st ->
  let D := unique_validator cf I in
  (forall s t, real_pair cf s t -> (forall j, ~ is_link I st j s t) ->
     (not_created I st (d_create_link D s t st) \/
      exists st' n, G st' /\ adds cf I st st' n s t /\ d_create_link D s t st = Val (st', Ok n)) /\
     d_get_or_create cf D s t st = d_create_link D s t st) /\
  (forall s t j, real_pair cf s t -> is_link I st j s t ->
     exists k, is_link I st k s t /\ d_get_or_create cf D s t st = Val (st, Ok k)) /\
  (closed I st ->
     not_created I st (d_create_point D st) \/
     exists st' n, G st' /\ adds cf I st st' n n n /\ d_create_point D st = Val (st', Ok n)).
Proof. exact L_C73_unique_validator_partial. Qed.
Print Assumptions C73_unique_validator_partial.

(** Creating a link with a pair that is held already is refused, and leaves a new empty link. *)
Theorem C73_unique_validator_leak :
  forall cf S (I : LinksI S) G st j s t,
  good_store cf I G -> G st -> real_pair cf s t -> is_link I st j s t ->
  let D := unique_validator cf I in
  not_created I st (d_create_link D s t st) \/
  exists st' n, G st' /\ adds cf I st st' n 0 0 /\ d_create_link D s t st = Val (st', Err (AlreadyExists s t)).
Proof. exact L_C73_unique_validator_leak. Qed.
Print Assumptions C73_unique_validator_leak.

(** Through UsagesValidator, create_link and create_point give a new link if no link refers to
    a missing one. *)
Theorem C73_usages_validator :
  forall cf S (I : LinksI S) G st,
  good_store cf I G -> G st -> closed I st ->
  let D := usages_validator cf I in
  (forall s t, not_created I st (d_create_link D s t st) \/
     exists st' n, G st' /\ adds cf I st st' n s t /\ d_create_link D s t st = Val (st', Ok n)) /\
  (not_created I st (d_create_point D st) \/
     exists st' n, G st' /\ adds cf I st st' n n n /\ d_create_point D st = Val (st', Ok n)).
Proof. exact L_C73_usages_validator. Qed.
Print Assumptions C73_usages_validator.

Theorem C73_null_source :
  forall cf S (I : LinksI S) G st t,
  good_store cf I G -> G st ->
  forall D, D = unique_resolver cf I \/ D = unique_validator cf I ->
  (not_created I st (d_create_link D 0 t st) \/
   exists st' n, G st' /\ adds cf I st st' n 0 t /\ d_create_link D 0 t st = Val (st', Ok n)) /\
  d_get_or_create cf D 0 t st = d_create_link D 0 t st /\
  (forall i, linked I st i -> separable I st i ->
     exists st', G st' /\ is_link I st' i 0 t /\ frame I st st' i /\ d_update D i 0 t st = Val (st', Ok i)).
Proof. exact L_C73_null_source. Qed.
Print Assumptions C73_null_source.

Theorem C73_nonvacuous :
  exists st,
  good_store ex_cf ex_U (fun st => exists d, u_hist ex_cf ref_tree_ops ref_list_ops st d) /\
  (exists d, u_hist ex_cf ref_tree_ops ref_list_ops st d) /\ distinct_pairs ex_U st /\ closed ex_U st /\
  is_link ex_U st 2 1 2 /\ is_link ex_U st 3 2 1 /\ real_pair ex_cf 1 2 /\ (forall j, ~ is_link ex_U st j 2 2) /\
  (exists st', d_create_link (unique_resolver ex_cf ex_U) 1 2 st = Val (st', Ok 2) /\ no_link ex_U st' 4) /\
  (exists st', d_create_link (unique_resolver ex_cf ex_U) 2 2 st = Val (st', Ok 4) /\ is_link ex_U st' 4 2 2) /\
  (exists st', d_create_link (unique_validator ex_cf ex_U) 2 2 st = Val (st', Ok 4) /\ is_link ex_U st' 4 2 2) /\
  (exists st', d_create_link (usages_validator ex_cf ex_U) 2 2 st = Val (st', Ok 4) /\ is_link ex_U st' 4 2 2) /\
  (exists st', d_update (unique_resolver ex_cf ex_U) 3 1 2 st = Val (st', Ok 2) /\ no_link ex_U st' 3).
Proof. exact L_C73_nonvacuous. Qed.
Print Assumptions C73_nonvacuous.

(** A second and a third link with the pair (0, 2). *)
Theorem C73_null_source_nonvacuous :
  exists st,
  good_store ex_cf ex_U (fun st => exists d, u_hist ex_cf ref_tree_ops ref_list_ops st d) /\
  (exists d, u_hist ex_cf ref_tree_ops ref_list_ops st d) /\ is_link ex_U st 2 0 2 /\ linked ex_U st 1 /\ separable ex_U st 1 /\
  (exists st', d_create_link (unique_resolver ex_cf ex_U) 0 2 st = Val (st', Ok 3) /\ is_link ex_U st' 2 0 2 /\ is_link ex_U st' 3 0 2) /\
  (exists st', d_get_or_create ex_cf (unique_validator ex_cf ex_U) 0 2 st = Val (st', Ok 3) /\ is_link ex_U st' 2 0 2 /\ is_link ex_U st' 3 0 2).
Proof. exact L_C73_null_source_nonvacuous. Qed.
Print Assumptions C73_null_source_nonvacuous.

(** Refused calls leave an empty link behind: a held pair with UniqueValidator, and a link that
    refers to the next index with UsagesValidator. *)
Theorem C73_refuted :
  (exists st d st', u_hist ex_cf ref_tree_ops ref_list_ops st d /\ distinct_pairs ex_U st /\ closed ex_U st /\
     is_link ex_U st 2 1 2 /\ no_link ex_U st 4 /\
     d_create_link (unique_validator ex_cf ex_U) 1 2 st = Val (st', Err (AlreadyExists 1 2)) /\ is_link ex_U st' 4 0 0) /\
  (exists st d st', u_hist ex_cf ref_tree_ops ref_list_ops st d /\ distinct_pairs ex_U st /\
     is_link ex_U st 1 1 2 /\ no_link ex_U st 2 /\
     d_create_link (usages_validator ex_cf ex_U) 1 1 st = Val (st', Err (HasUsages [mkLink 1 1 2])) /\ is_link ex_U st' 2 0 0).
Proof. exact L_C73_refuted. Qed.
Print Assumptions C73_refuted.

(** UsagesValidator together with one of the unique decorators, in either order: pairs stay
    distinct and no link refers to a missing one, whatever is created, deleted, and updated to
    pairs of present ends.  Missing: that a refused call changes nothing (next theorem). *)
Theorem C74_stacks_partial :
  forall cf S (I : LinksI S) G st,
  good_store cf I G -> G st -> distinct_pairs I st -> closed I st ->
  keeps cf I (usages_validator cf (unique_validator cf I)) st /\
  keeps cf I (unique_validator cf (usages_validator cf I)) st /\
  keeps cf I (usages_validator cf (unique_resolver cf I)) st /\
  keeps cf I (unique_resolver cf (usages_validator cf I)) st.
Proof. exact L_C74_stacks_partial. Qed.
Print Assumptions C74_stacks_partial.

(** NonNullDeletionResolver on top of UsagesValidator: deletions keep both too, and a refused
    one changes nothing. *)
Theorem C74_non_null :
  forall cf S (I : LinksI S) G st q i H (h : whandler H) x,
  good_store cf I G -> G st -> distinct_pairs I st -> closed I st -> qget q 0 = Val i ->
  exists st' x' r, li_delete (non_null_deletion_resolver cf (usages_validator cf I)) H h q st x = Val (st', x', r) /\
    distinct_pairs I st' /\ closed I st' /\
    match r with
    | Ok _ => no_link I st' i /\ frame I st st' i /\ forall l, ~ user I st i l
    | Err _ => st' = st /\ x' = x
    end.
Proof. exact L_C74_non_null. Qed.
Print Assumptions C74_non_null.

(** UniqueResolver on top of UsagesValidator: the updated link is deleted, then the update of the
    holder of the pair is refused if the holder is used, so the call fails halfway. *)
Theorem C74_resolver_over_validator_halfway :
  forall cf S (I : LinksI S) G st q ch i j s t l,
  good_store cf I G -> G st -> distinct_pairs I st -> closed I st -> real_pair cf s t ->
  linked I st i -> (forall k, ~ user I st i k) -> is_link I st j s t -> j <> i -> user I st j l -> l_index l <> i ->
  qget q 0 = Val i -> qget ch 1 = Val s -> qget ch 2 = Val t ->
  exists st' L, no_link I st' i /\ frame I st st' i /\ (forall k, In k L <-> user I st' j k) /\
    forall H (h : whandler H) x, exists x',
      li_update (unique_resolver cf (usages_validator cf I)) H h q ch st x = Val (st', x', Err (HasUsages L)).
Proof. exact L_C74_resolver_over_validator_halfway. Qed.
Print Assumptions C74_resolver_over_validator_halfway.

(** 1: 1->1, 2: 1->2, 3: 2->1 as above, through four stacks: a free pair of present ends, then the
    deletion of the unused link 3. *)
Theorem C74_nonvacuous :
  exists st,
  good_store ex_cf ex_U (fun st => exists d, u_hist ex_cf ref_tree_ops ref_list_ops st d) /\
  (exists d, u_hist ex_cf ref_tree_ops ref_list_ops st d) /\ distinct_pairs ex_U st /\ closed ex_U st /\
  forall D, In D [usages_validator ex_cf (unique_validator ex_cf ex_U); unique_validator ex_cf (usages_validator ex_cf ex_U);
                  usages_validator ex_cf (unique_resolver ex_cf ex_U); unique_resolver ex_cf (usages_validator ex_cf ex_U)] ->
    exists st1 st2, li_update D unit cont [3] [3; 2; 2] st tt = Val (st1, tt, Ok Continue) /\ is_link ex_U st1 3 2 2 /\
      li_delete D unit cont [2] st1 tt = Val (st1, tt, Err (HasUsages [mkLink 3 2 2; mkLink 3 2 2])) /\
      li_delete D unit cont [3] st1 tt = Val (st2, tt, Ok Continue) /\ no_link ex_U st2 3.
Proof. exact L_C74_nonvacuous. Qed.
Print Assumptions C74_nonvacuous.

(** The same on a concrete store: 3 is gone although the call failed. *)
Theorem C74_refuted :
  exists st d st',
  u_hist ex_cf ref_tree_ops ref_list_ops st d /\ distinct_pairs ex_U st /\ closed ex_U st /\ is_link ex_U st 3 2 1 /\
  li_update (unique_resolver ex_cf (usages_validator ex_cf ex_U)) unit cont [3] [3; 1; 1] st tt =
    Val (st', tt, Err (HasUsages [mkLink 2 1 2])) /\
  no_link ex_U st' 3.
Proof. exact L_C74_refuted. Qed.
Print Assumptions C74_refuted.
