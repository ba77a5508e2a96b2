(** The benchmark programs and the randomized test in builds without overflow checks (C104). *)
From Coq Require Import NArith PeanoNat List Bool Lia Permutation.
From Verif Require Import WrapBench Base Trees Lists Spec Iface UnitModel UnitInv UnitOps UnitLinks LinkModel SplitModel Forest
  SplitInv SplitReads SplitOps SplitWrites SplitLinks Doublets DoubletsOK Obs Hist Claims TreeImpl UnitHist SplitHist UnitClaims SplitClaims
  DefaultClaims SplitDefaults RandomTest MemUse Bench WrapModel WrapClaims.
Import ListNotations.
Open Scope N_scope.

(** The setup of the first program ends in an unwrapped error of a creation that found no memory
    or no index left, or with the store that every measured closure sees as the points that were
    not deleted, by growing index. *)
Theorem C104_iter_unit :
  forall cf tops lops st d n f,
  let W := wunit_links cf tops lops in
  unit_env cf tops lops -> cfg_room cf -> wu_hist cf tops lops st d -> (forall i, no_link W st i) ->
  exists st' r, bench_setup W n f st = Val (st', r) /\
    match r with
    | Ok _ =>
        let L := map (fun i => mkLink i i i) (filter (fun i => negb (f i)) (map N.of_nat (seq 1 n))) in
        (exists d', wu_hist cf tops lops st' d') /\ d_iter cf W st' = Val L /\
        (forall H B (h : uread H B) x, exists r, d_each W h st' x = Val r /\ visit_result h x L r) /\
        bench_vec W st' = Val (N.of_nat (length L), L)
    | Err e => e = AllocFailed \/ (e = LimitReached (c_iend cf) /\ c_iend cf < N.of_nat n)
    end.
Proof. exact L_C104_iter_unit. Qed.
Print Assumptions C104_iter_unit.

Theorem C104_iter_split :
  forall cf tops lops st d n f,
  let W := wsplit_links cf tops lops in
  unit_env cf tops lops -> c_iend cf + 1 + c_step cf <= c_tmax cf -> ws_hist cf tops lops st d -> (forall i, no_link W st i) ->
  exists st' r, bench_setup W n f st = Val (st', r) /\
    match r with
    | Ok _ =>
        let L := map (fun i => mkLink i i i) (filter (fun i => negb (f i)) (map N.of_nat (seq 1 n))) in
        (exists d', ws_hist cf tops lops st' d') /\ d_iter cf W st' = Val L /\
        (forall H B (h : uread H B) x, exists r, d_each W h st' x = Val r /\ visit_result h x L r) /\
        bench_vec W st' = Val (N.of_nat (length L), L)
    | Err e => e = AllocFailed \/ (e = LimitReached (c_iend cf) /\ c_iend cf < N.of_nat n)
    end.
Proof. exact L_C104_iter_split. Qed.
Print Assumptions C104_iter_split.

(** Any number of rounds of the second program: the points 1 to rounds * n and nothing else. *)
Theorem C104_create_unit :
  forall cf tops lops st d m n,
  let W := wunit_links cf tops lops in
  unit_env cf tops lops -> cfg_room cf -> wu_hist cf tops lops st d -> (forall i, no_link W st i) ->
  exists st' r, bench_create W m n st = Val (st', r) /\
    match r with
    | Ok _ => (exists d', wu_hist cf tops lops st' d') /\
        forall i s t, is_link W st' i s t <-> (1 <= i <= N.of_nat (m * n) /\ s = i /\ t = i)
    | Err e => e = AllocFailed \/ (e = LimitReached (c_iend cf) /\ c_iend cf < N.of_nat (m * n))
    end.
Proof. exact L_C104_create_unit. Qed.
Print Assumptions C104_create_unit.

Theorem C104_create_split :
  forall cf tops lops st d m n,
  let W := wsplit_links cf tops lops in
  unit_env cf tops lops -> c_iend cf + 1 + c_step cf <= c_tmax cf -> ws_hist cf tops lops st d -> (forall i, no_link W st i) ->
  exists st' r, bench_create W m n st = Val (st', r) /\
    match r with
    | Ok _ => (exists d', ws_hist cf tops lops st' d') /\
        forall i s t, is_link W st' i s t <-> (1 <= i <= N.of_nat (m * n) /\ s = i /\ t = i)
    | Err e => e = AllocFailed \/ (e = LimitReached (c_iend cf) /\ c_iend cf < N.of_nat (m * n))
    end.
Proof. exact L_C104_create_split. Qed.
Print Assumptions C104_create_split.

(** The randomized test ends with an empty store or with a creation that found no memory or no
    index left; it never fails an assertion. *)
Theorem C104_random_unit :
  forall cf tops lops st d l,
  let W := wunit_links cf tops lops in
  unit_env cf tops lops -> cfg_room cf -> wu_hist cf tops lops st d -> (forall i, no_link W st i) -> Forall (Forall drawn) l ->
  exists st' r, rt_run cf W l st = Val (st', r) /\
    match r with
    | Ok _ => (exists d', wu_hist cf tops lops st' d') /\ forall i, no_link W st' i
    | Err e => exists fs, In fs l /\
        (e = AllocFailed \/ (e = LimitReached (c_iend cf) /\ c_iend cf < N.of_nat (length fs)))
    end.
Proof. exact L_C104_random_unit. Qed.
Print Assumptions C104_random_unit.

Theorem C104_random_split :
  forall cf tops lops st d l,
  let W := wsplit_links cf tops lops in
  unit_env cf tops lops -> c_iend cf + 1 + c_step cf <= c_tmax cf -> ws_hist cf tops lops st d -> (forall i, no_link W st i) ->
  Forall (Forall drawn) l ->
  exists st' r, rt_run cf W l st = Val (st', r) /\
    match r with
    | Ok _ => (exists d', ws_hist cf tops lops st' d') /\ forall i, no_link W st' i
    | Err e => exists fs, In fs l /\
        (e = AllocFailed \/ (e = LimitReached (c_iend cf) /\ c_iend cf < N.of_nat (length fs)))
    end.
Proof. exact L_C104_random_split. Qed.
Print Assumptions C104_random_split.

(** Eight links with every third deleted, two rounds that run out of indices, and the example
    draws of C58, on both stores. *)
Theorem C104_nonvacuous :
  let W := wunit_links ex_cf ref_tree_ops ref_list_ops in let V := wsplit_links ex_cf ref_tree_ops ref_list_ops in
  let f x := x mod 3 =? 0 in
  let left := Val [mkLink 1 1 1; mkLink 2 2 2; mkLink 4 4 4; mkLink 5 5 5; mkLink 7 7 7; mkLink 8 8 8] in
  cfg_room ex_cf /\
  wu_hist ex_cf ref_tree_ops ref_list_ops ex_start [] /\ (forall i, no_link W ex_start i) /\
  ws_hist ex_cf ref_tree_ops ref_list_ops ex_sstart [] /\ (forall i, no_link V ex_sstart i) /\ Forall (Forall drawn) ex_draws /\
  match bench_setup W 8 f ex_start, bench_setup V 8 f ex_sstart with
  | Val (st, Ok _), Val (st', Ok _) => d_iter ex_cf W st = left /\ d_iter ex_cf V st' = left
  | _, _ => False
  end /\
  left_links (bench_create W 2 51 ex_start) (fun st => li_count W st []) = Some (Val 100, Err (LimitReached 100)) /\
  left_links (bench_create V 2 51 ex_sstart) (fun st => li_count V st []) = Some (Val 100, Err (LimitReached 100)) /\
  left_links (rt_run ex_cf W ex_draws ex_start) (fun st => li_count W st []) = Some (Val 0, Ok tt) /\
  left_links (rt_run ex_cf V ex_draws ex_sstart) (fun st => li_count V st []) = Some (Val 0, Ok tt).
Proof. exact L_C104_nonvacuous. Qed.
Print Assumptions C104_nonvacuous.
