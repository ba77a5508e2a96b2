(** Properties of the decorators over the store with two memories (C71, C72). *)
From Coq Require Import NArith List Bool Lia Permutation Sorted.
From Verif Require Import SplitDecorators Base Trees Lists Spec Iface UnitModel UnitInv UnitOps UnitLinks LinkModel SplitModel Forest
  SplitInv SplitReads SplitOps SplitWrites SplitLinks Doublets Obs DoubletsOK Hist Claims TreeImpl UnitHist SplitHist
  SplitClaims DefaultClaims SplitDefaults Decorators GoodStore UnitClaims DecoratorClaims.
Import ListNotations.
Open Scope N_scope.

(** * C71 The unique decorators over the two-memory store *)
Theorem C71_unique_validator_partial :
  forall cf tops lops st d,
  let SL := split_links cf tops lops in
  unit_env cf tops lops -> s_hist cf tops lops st d ->
  (forall q ch j s t, full_pair cf s t -> is_link SL st j s t -> qget ch 1 = Val s -> qget ch 2 = Val t ->
     fails_with (fun H h x => li_update (unique_validator cf SL) H h q ch st x) st (AlreadyExists s t)) /\
  (forall q ch s t, linked SL st s -> t <> 0 -> t <> c_any cf -> (forall j, ~ is_link SL st j s t) ->
     qget ch 1 = Val s -> qget ch 2 = Val t ->
     forall H (h : whandler H) x,
       li_update (unique_validator cf SL) H h q ch st x = li_update SL H h q ch st x) /\
  (distinct_pairs SL st -> forall st' d',
     histc (unique_validator cf SL) (fun s => s = st) (fun _ _ => False)
       (fun st i s t => full_pair cf s t /\ s_oku SL st i s t) (fun _ _ => True) (s_okc SL) st' d' ->
     (exists d, s_hist cf tops lops st' d) /\ distinct_pairs SL st').
Proof. exact L_C71_unique_validator_partial. Qed.
Print Assumptions C71_unique_validator_partial.

(** Once a link has an outer source, every update to a pair with that source is refused,
    whether a link holds the pair or not. *)
Theorem C71_outer_source_refused :
  forall cf tops lops st d q ch s t j t',
  let SL := split_links cf tops lops in
  unit_env cf tops lops -> s_hist cf tops lops st d ->
  is_link SL st j s t' -> no_link SL st s -> s <> 0 -> s <> c_any cf ->
  qget ch 1 = Val s -> qget ch 2 = Val t ->
  fails_with (fun H h x => li_update (unique_validator cf SL) H h q ch st x) st (AlreadyExists s t).
Proof. exact L_C71_outer_source_refused. Qed.
Print Assumptions C71_outer_source_refused.

Theorem C71_unique_resolver_partial :
  forall cf tops lops st d,
  let SL := split_links cf tops lops in
  unit_env cf tops lops -> s_hist cf tops lops st d ->
  (forall q ch i j s t s0 t0, full_pair cf s t -> distinct_pairs SL st ->
     is_link SL st j s t -> j <> i -> s <> j -> t <> j -> is_link SL st i s0 t0 ->
     qget q 0 = Val i -> qget ch 1 = Val s -> qget ch 2 = Val t ->
     exists st' b, (exists d, s_hist cf tops lops st' d) /\
       calls_twice (fun H h x => li_update (unique_resolver cf SL) H h q ch st x) st' (mkLink i s0 t0) nothing b (mkLink j s t) /\
       no_link SL st' i /\ frame SL st st' i) /\
  (forall q ch i s t, full_pair cf s t -> (forall j, ~ is_link SL st j s t) -> linked SL st i -> s_oku SL st i s t ->
     qget q 0 = Val i -> qget ch 1 = Val s -> qget ch 2 = Val t ->
     exists st' b, (exists d, s_hist cf tops lops st' d) /\
       calls_once (fun H h x => li_update (unique_resolver cf SL) H h q ch st x) st' b (mkLink i s t) /\
       is_link SL st' i s t /\ frame SL st st' i) /\
  (forall q ch i s t, full_pair cf s t -> no_link SL st i ->
     qget q 0 = Val i -> qget ch 1 = Val s -> qget ch 2 = Val t ->
     fails_with (fun H h x => li_update (unique_resolver cf SL) H h q ch st x) st (NotExists i)) /\
  (distinct_pairs SL st -> forall st' d',
     histc (unique_resolver cf SL) (fun s => s = st) (fun _ _ => False)
       (fun st i s t => full_pair cf s t /\ s_oku SL st i s t /\ forall j, is_link SL st j s t -> j <> i -> s <> j /\ t <> j)
       (fun _ _ => True) (s_okc SL) st' d' ->
     (exists d, s_hist cf tops lops st' d) /\ distinct_pairs SL st').
Proof. exact L_C71_unique_resolver_partial. Qed.
Print Assumptions C71_unique_resolver_partial.

(** Updating any link to the pair it holds already deletes it and fails. *)
Theorem C71_unique_resolver_own_pair :
  forall cf tops lops st d q ch i s t,
  let SL := split_links cf tops lops in
  unit_env cf tops lops -> s_hist cf tops lops st d -> full_pair cf s t -> distinct_pairs SL st -> is_link SL st i s t ->
  qget q 0 = Val i -> qget ch 1 = Val s -> qget ch 2 = Val t ->
  exists st', (exists d, s_hist cf tops lops st' d) /\ no_link SL st' i /\ frame SL st st' i /\
    forall H (h : whandler H) x, li_update (unique_resolver cf SL) H h q ch st x =
      Val (st', fst (h x (mkLink i s t) nothing), Err (NotExists i)).
Proof. exact L_C71_unique_resolver_own_pair. Qed.
Print Assumptions C71_unique_resolver_own_pair.

Theorem C71_nonvacuous :
  exists st d, s_hist ex_cf ref_tree_ops ref_list_ops st d /\ distinct_pairs ex_S st /\
  is_link ex_S st 2 3 1 /\ is_link ex_S st 4 5 1 /\ full_pair ex_cf 3 1 /\ (forall j, ~ is_link ex_S st j 5 3) /\ s_oku ex_S st 4 5 3 /\
  li_update (unique_validator ex_cf ex_S) unit cont [4] [4; 3; 1] st tt = Val (st, tt, Err (AlreadyExists 3 1)) /\
  (exists st', li_update (unique_validator ex_cf ex_S) unit cont [4] [4; 5; 3] st tt = Val (st', tt, Ok Continue) /\
     is_link ex_S st' 4 5 3) /\
  (exists st', li_update (unique_resolver ex_cf ex_S) (list (link * link)) (fun l b a => (l ++ [(b, a)], Continue)) [4] [4; 3; 1] st []
       = Val (st', [(mkLink 4 5 1, nothing); (mkLink 2 3 1, mkLink 2 3 1)], Ok Continue) /\
     no_link ex_S st' 4 /\ is_link ex_S st' 2 3 1 /\ d_search ex_cf ex_S st' 3 1 = Val (Some 2)).
Proof. exact L_C71_nonvacuous. Qed.
Print Assumptions C71_nonvacuous.

(** A free pair is refused: another link has the same outer source, or there is a hole and no
    link has an outer source.  And where the holder refers to itself, resolving makes it
    impossible to find, after which the same pair is given out again. *)
Theorem C71_refuted :
  (exists st d, s_hist ex_cf ref_tree_ops ref_list_ops st d /\ distinct_pairs ex_S st /\ linked ex_S st 2 /\
     (forall j, ~ is_link ex_S st j 50 1) /\
     li_update (unique_validator ex_cf ex_S) unit cont [2] [2; 50; 1] st tt = Val (st, tt, Err (AlreadyExists 50 1))) /\
  (exists st d, s_hist ex_cf ref_tree_ops ref_list_ops st d /\ distinct_pairs ex_S st /\ linked ex_S st 2 /\
     (forall j t, ~ is_link ex_S st j 50 t) /\
     li_update (unique_validator ex_cf ex_S) unit cont [2] [2; 50; 1] st tt = Val (st, tt, Err (AlreadyExists 50 1))) /\
  (exists st d st' st2, s_hist ex_cf ref_tree_ops ref_list_ops st d /\ distinct_pairs ex_S st /\
     is_link ex_S st 2 1 2 /\ is_link ex_S st 3 2 1 /\ is_link ex_S st 4 3 1 /\ d_search ex_cf ex_S st 1 2 = Val (Some 2) /\
     li_update (unique_resolver ex_cf ex_S) unit cont [3] [3; 1; 2] st tt = Val (st', tt, Ok Continue) /\
     is_link ex_S st' 2 1 2 /\ d_search ex_cf ex_S st' 1 2 = Val None /\
     li_update (unique_resolver ex_cf ex_S) unit cont [4] [4; 1; 2] st' tt = Val (st2, tt, Ok Continue) /\
     is_link ex_S st2 2 1 2 /\ is_link ex_S st2 4 1 2).
Proof. exact L_C71_refuted. Qed.
Print Assumptions C71_refuted.

Theorem C72_usages_validator :
  forall cf tops lops st d q i,
  let SL := split_links cf tops lops in
  unit_env cf tops lops -> 2 * c_iend cf <= c_tmax cf -> s_hist cf tops lops st d -> qget q 0 = Val i ->
  (forall l, linked SL st i -> user SL st i l ->
     exists L, (forall k, In k L <-> user SL st i k) /\
       fails_with (fun H h x => li_delete (usages_validator cf SL) H h q st x) st (HasUsages L) /\
       forall ch, fails_with (fun H h x => li_update (usages_validator cf SL) H h q ch st x) st (HasUsages L)) /\
  (forall s t, is_link SL st i s t -> separable SL st i -> (forall l, ~ user SL st i l) ->
     exists st', (exists d, s_hist cf tops lops st' d) /\
       calls_once (fun H h x => li_delete (usages_validator cf SL) H h q st x) st' (mkLink i s t) nothing /\
       no_link SL st' i /\ frame SL st st' i /\ unreferred SL st' i) /\
  (no_link SL st i -> fails_with (fun H h x => li_delete (usages_validator cf SL) H h q st x) st (NotExists i)).
Proof. exact L_C72_usages_validator. Qed.
Print Assumptions C72_usages_validator.

(** Emptying a link first and deleting it then removes exactly that link. *)
Theorem C72_non_null_deletion :
  forall cf tops lops st d q i,
  let SL := split_links cf tops lops in
  unit_env cf tops lops -> s_hist cf tops lops st d -> qget q 0 = Val i ->
  (forall s t, is_link SL st i s t -> s_okd SL st i -> exists st', (exists d, s_hist cf tops lops st' d) /\
     calls_twice (fun H h x => li_delete (non_null_deletion_resolver cf SL) H h q st x) st'
       (mkLink i s t) (mkLink i 0 0) (mkLink i 0 0) nothing /\
     no_link SL st' i /\ frame SL st st' i) /\
  (no_link SL st i -> fails_with (fun H h x => li_delete (non_null_deletion_resolver cf SL) H h q st x) st (NotExists i)).
Proof. exact L_C72_non_null_deletion. Qed.
Print Assumptions C72_non_null_deletion.

(** The users are deleted, then the link. *)
Theorem C72_cascade_usages_partial :
  forall cf tops lops st d q i s t,
  let SL := split_links cf tops lops in
  unit_env cf tops lops -> s_hist cf tops lops st d -> qget q 0 = Val i -> is_link SL st i s t ->
  separable SL st i -> (forall l, user SL st i l -> s_okd SL st (l_index l)) ->
  (forall x, x <> i -> ~ is_link SL st x i i) ->
  exists st' L, (exists d, s_hist cf tops lops st' d) /\ (forall l, In l L <-> user SL st i l) /\
    removed SL st st' (mkLink i s t :: L) /\
    (forall H (h : whandler H) x, exists x' f,
       li_delete (cascade_usages_resolver cf SL) H h q st x = Val (st', x', Ok f)) /\
    unreferred SL st' i.
Proof. exact L_C72_cascade_usages_partial. Qed.
Print Assumptions C72_cascade_usages_partial.

(** Whenever another link has i at both ends, the delete fails. *)
Theorem C72_cascade_usages_double :
  forall cf tops lops st d q i x,
  let SL := split_links cf tops lops in
  unit_env cf tops lops -> s_hist cf tops lops st d -> qget q 0 = Val i -> linked SL st i ->
  (forall l, user SL st i l -> s_okd SL st (l_index l)) -> x <> i -> is_link SL st x i i ->
  exists st', li_delete (cascade_usages_resolver cf SL) unit cont q st tt = Val (st', tt, Err (NotExists x)).
Proof. exact L_C72_cascade_usages_double. Qed.
Print Assumptions C72_cascade_usages_double.

(** Updating i to a pair held by another link j redirects the usages of i to j and deletes i. *)
Theorem C72_cascade_unique_partial :
  forall cf tops lops st d q ch i s t,
  let SL := split_links cf tops lops in
  unit_env cf tops lops -> s_hist cf tops lops st d -> full_pair cf s t ->
  qget q 0 = Val i -> qget ch 1 = Val s -> qget ch 2 = Val t ->
  (forall j, distinct_pairs SL st -> linked SL st i -> is_link SL st j s t -> j <> i -> s <> i -> t <> i -> s <> j -> t <> j ->
     (forall x, x <> i -> ~ is_link SL st x i i) -> plain_users SL st i j ->
     (forall k k' s t, moved SL st i j k s t -> moved SL st i j k' s t -> (s, t) <> (0, 0) -> k = k') ->
     exists st', (exists d, s_hist cf tops lops st' d) /\ no_link SL st' i /\
       (forall k s' t', k <> i -> (is_link SL st' k s' t' <-> moved SL st i j k s' t')) /\
       forall H (h : whandler H) x, exists x' f,
         li_update (cascade_unique_resolver cf SL) H h q ch st x = Val (st', x', Ok f)) /\
  ((forall j, ~ is_link SL st j s t) -> linked SL st i -> s_oku SL st i s t ->
     exists st' b, (exists d, s_hist cf tops lops st' d) /\
       calls_once (fun H h x => li_update (cascade_unique_resolver cf SL) H h q ch st x) st' b (mkLink i s t) /\
       is_link SL st' i s t /\ frame SL st st' i) /\
  (no_link SL st i -> fails_with (fun H h x => li_update (cascade_unique_resolver cf SL) H h q ch st x) st (NotExists i)).
Proof. exact L_C72_cascade_unique_partial. Qed.
Print Assumptions C72_cascade_unique_partial.

Theorem C72_nonvacuous :
  2 * c_iend ex_cf <= c_tmax ex_cf /\ exists st d, s_hist ex_cf ref_tree_ops ref_list_ops st d /\ distinct_pairs ex_S st /\
  is_link ex_S st 4 50 1 /\ is_link ex_S st 5 4 3 /\ is_link ex_S st 2 3 1 /\
  (forall x, x <> 4 -> ~ is_link ex_S st x 4 4) /\ plain_users ex_S st 4 2 /\
  (forall k k' s t, moved ex_S st 4 2 k s t -> moved ex_S st 4 2 k' s t -> (s, t) <> (0, 0) -> k = k') /\
  li_delete (usages_validator ex_cf ex_S) unit cont [4] st tt = Val (st, tt, Err (HasUsages [mkLink 5 4 3])) /\
  (exists st', li_delete (usages_validator ex_cf ex_S) unit cont [5] st tt = Val (st', tt, Ok Continue) /\
     no_link ex_S st' 5 /\ is_link ex_S st' 4 50 1) /\
  (exists st', li_delete (non_null_deletion_resolver ex_cf ex_S) (list (link * link)) record_calls [4] st []
       = Val (st', [(mkLink 4 50 1, mkLink 4 0 0); (mkLink 4 0 0, nothing)], Ok Continue) /\
     no_link ex_S st' 4 /\ is_link ex_S st' 5 4 3) /\
  (exists st', li_delete (cascade_usages_resolver ex_cf ex_S) unit cont [4] st tt = Val (st', tt, Ok Continue) /\
     no_link ex_S st' 4 /\ no_link ex_S st' 5 /\ is_link ex_S st' 2 3 1) /\
  (exists st', li_update (cascade_unique_resolver ex_cf ex_S) unit cont [4] [4; 3; 1] st tt = Val (st', tt, Ok Continue) /\
     no_link ex_S st' 4 /\ is_link ex_S st' 5 2 3 /\ is_link ex_S st' 2 3 1 /\ d_search ex_cf ex_S st' 2 3 = Val (Some 5)).
Proof. exact L_C72_nonvacuous. Qed.
Print Assumptions C72_nonvacuous.

(** The users of a deleted user keep their reference and are not found once its index is given
    out again; a link with i at both ends makes the cascade fail; and a redirected link that
    refers to itself cannot be found afterwards. *)
Theorem C72_refuted :
  (exists st d st' st2, s_hist ex_cf ref_tree_ops ref_list_ops st d /\ distinct_pairs ex_S st /\
     (forall x, x <> 2 -> ~ is_link ex_S st x 2 2) /\ is_link ex_S st 3 2 1 /\ is_link ex_S st 4 3 1 /\
     li_delete (cascade_usages_resolver ex_cf ex_S) unit cont [2] st tt = Val (st', tt, Ok Continue) /\
     no_link ex_S st' 3 /\ is_link ex_S st' 4 3 1 /\ d_search ex_cf ex_S st' 3 1 = Val (Some 4) /\
     d_create ex_S st' = Val (st2, Ok 2) /\ 
     exists st3, d_create ex_S st2 = Val (st3, Ok 3) /\ is_link ex_S st3 4 3 1 /\ d_search ex_cf ex_S st3 3 1 = Val None) /\
  (exists st d st', s_hist ex_cf ref_tree_ops ref_list_ops st d /\ distinct_pairs ex_S st /\ linked ex_S st 1 /\
     li_delete (cascade_usages_resolver ex_cf ex_S) unit cont [1] st tt = Val (st', tt, Err (NotExists 2)) /\
     linked ex_S st' 1) /\
  (exists st d st', s_hist ex_cf ref_tree_ops ref_list_ops st d /\ distinct_pairs ex_S st /\
     is_link ex_S st 4 3 4 /\ d_search ex_cf ex_S st 3 4 = Val (Some 4) /\
     li_update (cascade_unique_resolver ex_cf ex_S) unit cont [3] [3; 1; 2] st tt = Val (st', tt, Ok Continue) /\
     is_link ex_S st' 4 2 4 /\ d_search ex_cf ex_S st' 2 4 = Val None).
Proof. exact L_C72_refuted. Qed.
Print Assumptions C72_refuted.
