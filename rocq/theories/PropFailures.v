(** Failures of the unique decorators and of create_until that happen on every store (C35, C36, C37, C41). *)
From Coq Require Import NArith List Bool Lia Permutation Sorted.
From Verif Require Import Failures Base Trees Lists TreeImpl Spec Iface Doublets DoubletsOK Obs Hist Claims Decorators
  UnitModel UnitInv UnitOps UnitLinks UnitHist UnitClaims GoodStore DecoratorClaims DefaultClaims.
Import ListNotations.
Open Scope N_scope.

(** UniqueValidator accepts every pair with a null source, whichever links hold it. *)
Theorem C36_null_source_never_seen :
  forall cf tops lops st d q ch t,
  let U := unit_links cf tops lops in
  unit_env cf tops lops -> u_hist cf tops lops st d -> qget ch 1 = Val 0 -> qget ch 2 = Val t ->
  forall H (h : whandler H) x, li_update (unique_validator cf U) H h q ch st x = li_update U H h q ch st x.
Proof. exact L_C36_null_source_never_seen. Qed.
Print Assumptions C36_null_source_never_seen.

(** So two links get the same pair. *)
Theorem C36_null_source_doubled :
  forall cf tops lops st d i j t,
  let U := unit_links cf tops lops in
  unit_env cf tops lops -> u_hist cf tops lops st d -> is_link U st j 0 t -> t <> 0 -> linked U st i -> i <> j -> separable U st i ->
  exists st' b, u_hist cf tops lops st' d /\
    calls_once (fun H h x => li_update (unique_validator cf U) H h [i] [i; 0; t] st x) st' b (mkLink i 0 t) /\
    is_link U st' i 0 t /\ is_link U st' j 0 t /\ ~ distinct_pairs U st'.
Proof. exact L_C36_null_source_doubled. Qed.
Print Assumptions C36_null_source_doubled.

Theorem C36_null_source_nonvacuous :
  exists st d, u_hist ex_cf ref_tree_ops ref_list_ops st d /\
  is_link ex_U st 1 0 5 /\ linked ex_U st 2 /\ separable ex_U st 2.
Proof. exact L_C36_null_source_nonvacuous. Qed.
Print Assumptions C36_null_source_nonvacuous.

(** Neither do the resolvers see such pairs: they update the link and leave the holders of
    the pair alone. *)
Theorem C37_null_source_not_merged :
  forall cf tops lops st d q ch i t,
  let U := unit_links cf tops lops in
  unit_env cf tops lops -> u_hist cf tops lops st d -> linked U st i -> separable U st i ->
  qget q 0 = Val i -> qget ch 1 = Val 0 -> qget ch 2 = Val t ->
  exists st' b, u_hist cf tops lops st' d /\ is_link U st' i 0 t /\ frame U st st' i /\
    calls_once (fun H h x => li_update (unique_resolver cf U) H h q ch st x) st' b (mkLink i 0 t).
Proof. exact L_C37_null_source_not_merged. Qed.
Print Assumptions C37_null_source_not_merged.

Theorem C41_null_source_not_merged :
  forall cf tops lops st d q ch i t,
  let U := unit_links cf tops lops in
  unit_env cf tops lops -> u_hist cf tops lops st d -> linked U st i -> separable U st i ->
  qget q 0 = Val i -> qget ch 1 = Val 0 -> qget ch 2 = Val t ->
  exists st' b, u_hist cf tops lops st' d /\ is_link U st' i 0 t /\ frame U st st' i /\
    calls_once (fun H h x => li_update (cascade_unique_resolver cf U) H h q ch st x) st' b (mkLink i 0 t).
Proof. exact L_C41_null_source_not_merged. Qed.
Print Assumptions C41_null_source_not_merged.

Theorem C37_null_source_nonvacuous :
  exists st d, u_hist ex_cf ref_tree_ops ref_list_ops st d /\
  is_link ex_U st 1 0 5 /\ linked ex_U st 2 /\ separable ex_U st 2.
Proof. exact L_C37_null_source_nonvacuous. Qed.
Print Assumptions C37_null_source_nonvacuous.

Theorem C41_null_source_nonvacuous :
  exists st d, u_hist ex_cf ref_tree_ops ref_list_ops st d /\
  is_link ex_U st 1 0 5 /\ linked ex_U st 2 /\ separable ex_U st 2.
Proof. exact L_C41_null_source_nonvacuous. Qed.
Print Assumptions C41_null_source_nonvacuous.

(** The link is deleted, its usages are left dangling, and the call fails. *)
Theorem C41_own_pair :
  forall cf S (I : LinksI S) G st q ch i s t,
  good_store cf I G -> G st -> real_pair cf s t -> distinct_pairs I st -> is_link I st i s t ->
  qget q 0 = Val i -> qget ch 1 = Val s -> qget ch 2 = Val t ->
  exists st', G st' /\ no_link I st' i /\ frame I st st' i /\
    forall H (h : whandler H) x, li_update (cascade_unique_resolver cf I) H h q ch st x =
      Val (st', fst (h x (mkLink i s t) nothing), Err (NotExists i)).
Proof. exact L_C41_own_pair. Qed.
Print Assumptions C41_own_pair.

Theorem C41_own_pair_nonvacuous :
  exists st,
  good_store ex_cf ex_U (fun st => exists d, u_hist ex_cf ref_tree_ops ref_list_ops st d) /\
  (exists d, u_hist ex_cf ref_tree_ops ref_list_ops st d) /\ distinct_pairs ex_U st /\
  is_link ex_U st 2 1 2 /\ is_link ex_U st 3 2 1 /\ real_pair ex_cf 1 2.
Proof. exact L_C41_own_pair_nonvacuous. Qed.
Print Assumptions C41_own_pair_nonvacuous.

(** A store without holes whose memory is used up panics on every create if the grown memory
    would exceed the address type, however many indices are left. *)
Theorem C35_near_end_panics :
  forall cf tops lops st d n,
  let U := unit_links cf tops lops in
  unit_env cf tops lops -> u_hist cf tops lops st d -> (forall k, ~ hole U st k) ->
  u_count cf st [] = Val n -> n < c_iend cf -> h_reserved st <= n + 1 ->
  u_orc st 0%nat (u_len st + c_step cf) = true -> c_tmax cf < u_len st + c_step cf ->
  d_create U st = Panic /\ forall H (h : whandler H) q x, u_create cf lops h q st x = Panic.
Proof. exact L_C35_near_end_panics. Qed.
Print Assumptions C35_near_end_panics.

Theorem C35_near_end_nonvacuous :
  unit_env ex_cf20 ref_tree_ops ref_list_ops /\
  let st := ex20 15 in u_count ex_cf20 st [] = Val 15 /\ 15 < c_iend ex_cf20 /\ h_reserved st <= 15 + 1 /\
    u_orc st 0%nat (u_len st + c_step ex_cf20) = true /\ c_tmax ex_cf20 < u_len st + c_step ex_cf20 /\
    u_hist ex_cf20 ref_tree_ops ref_list_ops st [].
Proof. exact L_C35_near_end_nonvacuous. Qed.
Print Assumptions C35_near_end_nonvacuous.
