(** The benchmark programs (C100). *)
From Coq Require Import NArith List Bool Lia Permutation Sorted.
From Verif Require Import Bench Base Trees Lists Spec Iface UnitModel UnitInv UnitOps UnitLinks LinkModel SplitModel Forest
  SplitInv SplitReads SplitOps SplitWrites SplitLinks Doublets Obs DoubletsOK Hist Claims TreeImpl UnitHist SplitHist
  SplitClaims UnitClaims DefaultClaims SplitDefaults RandomTest MemUse.
Import ListNotations.
Open Scope N_scope.

(** From any history that left the store empty, the setup ends with an unwrapped error of a
    creation that found no memory or no index left, or with the store that every measured closure
    sees as the points that were not deleted, by growing index. *)
Theorem C100_iter_unit :
  forall cf tops lops st d n f,
  let U := unit_links cf tops lops in
  unit_env cf tops lops -> cfg_room cf -> u_hist cf tops lops st d -> (forall i, no_link U st i) ->
  exists st' r, bench_setup U n f st = Val (st', r) /\
    match r with
    | Ok _ =>
        let L := map (fun i => mkLink i i i) (filter (fun i => negb (f i)) (map N.of_nat (seq 1 n))) in
        (exists d', u_hist cf tops lops st' d') /\ d_iter cf U st' = Val L /\
        (forall H B (h : uread H B) x, exists r, d_each U h st' x = Val r /\ visit_result h x L r) /\
        bench_vec U st' = Val (N.of_nat (length L), L)
    | Err e => e = AllocFailed \/ (e = LimitReached (c_iend cf) /\ c_iend cf < N.of_nat n)
    end.
Proof. exact L_C100_iter_unit. Qed.
Print Assumptions C100_iter_unit.

Theorem C100_iter_split :
  forall cf tops lops st d n f,
  let SL := split_links cf tops lops in
  unit_env cf tops lops -> c_iend cf + 1 + c_step cf <= c_tmax cf -> s_hist cf tops lops st d ->
  (forall i, no_link SL st i) ->
  exists st' r, bench_setup SL n f st = Val (st', r) /\
    match r with
    | Ok _ =>
        let L := map (fun i => mkLink i i i) (filter (fun i => negb (f i)) (map N.of_nat (seq 1 n))) in
        (exists d', s_hist cf tops lops st' d') /\ d_iter cf SL st' = Val L /\
        (forall H B (h : uread H B) x, exists r, d_each SL h st' x = Val r /\ visit_result h x L r) /\
        bench_vec SL st' = Val (N.of_nat (length L), L)
    | Err e => e = AllocFailed \/ (e = LimitReached (c_iend cf) /\ c_iend cf < N.of_nat n)
    end.
Proof. exact L_C100_iter_split. Qed.
Print Assumptions C100_iter_split.

(** Any number of rounds of the second program: the points 1 to rounds * n and nothing else. *)
Theorem C100_create_unit :
  forall cf tops lops st d m n,
  let U := unit_links cf tops lops in
  unit_env cf tops lops -> cfg_room cf -> u_hist cf tops lops st d -> (forall i, no_link U st i) ->
  exists st' r, bench_create U m n st = Val (st', r) /\
    match r with
    | Ok _ => (exists d', u_hist cf tops lops st' d') /\
        forall i s t, is_link U st' i s t <-> (1 <= i <= N.of_nat (m * n) /\ s = i /\ t = i)
    | Err e => e = AllocFailed \/ (e = LimitReached (c_iend cf) /\ c_iend cf < N.of_nat (m * n))
    end.
Proof. exact L_C100_create_unit. Qed.
Print Assumptions C100_create_unit.

Theorem C100_create_split :
  forall cf tops lops st d m n,
  let SL := split_links cf tops lops in
  unit_env cf tops lops -> c_iend cf + 1 + c_step cf <= c_tmax cf -> s_hist cf tops lops st d ->
  (forall i, no_link SL st i) ->
  exists st' r, bench_create SL m n st = Val (st', r) /\
    match r with
    | Ok _ => (exists d', s_hist cf tops lops st' d') /\
        forall i s t, is_link SL st' i s t <-> (1 <= i <= N.of_nat (m * n) /\ s = i /\ t = i)
    | Err e => e = AllocFailed \/ (e = LimitReached (c_iend cf) /\ c_iend cf < N.of_nat (m * n))
    end.
Proof. exact L_C100_create_split. Qed.
Print Assumptions C100_create_split.

(** Eight links with every third deleted, and two rounds of three, on both stores; and a second
    round that runs out of indices. *)
Theorem C100_nonvacuous :
  let f x := x mod 3 =? 0 in
  let left := Val [mkLink 1 1 1; mkLink 2 2 2; mkLink 4 4 4; mkLink 5 5 5; mkLink 7 7 7; mkLink 8 8 8] in
  u_hist ex_cf ref_tree_ops ref_list_ops ex_start [] /\ (forall i, no_link ex_U ex_start i) /\
  s_hist ex_cf ref_tree_ops ref_list_ops ex_sstart [] /\ (forall i, no_link ex_S ex_sstart i) /\
  match bench_setup ex_U 8 f ex_start, bench_setup ex_S 8 f ex_sstart with
  | Val (st, Ok _), Val (st', Ok _) => d_iter ex_cf ex_U st = left /\ d_iter ex_cf ex_S st' = left
  | _, _ => False
  end /\
  left_links (bench_create ex_U 2 3 ex_start) (fun st => li_count ex_U st []) = Some (Val 6, Ok tt) /\
  left_links (bench_create ex_S 2 3 ex_sstart) (fun st => li_count ex_S st []) = Some (Val 6, Ok tt) /\
  left_links (bench_create ex_U 2 51 ex_start) (fun st => li_count ex_U st []) = Some (Val 100, Err (LimitReached 100)) /\
  left_links (bench_create ex_S 2 51 ex_sstart) (fun st => li_count ex_S st []) = Some (Val 100, Err (LimitReached 100)).
Proof. exact L_C100_nonvacuous. Qed.
Print Assumptions C100_nonvacuous.
