(** The repository's randomized test, for every outcome of its random choices. *)
From Coq Require Import NArith List Bool Lia Permutation Sorted.
From Verif Require Import RandomTest Base Trees Lists Spec Iface UnitModel UnitInv UnitOps UnitLinks LinkModel SplitModel Forest
  SplitInv SplitReads SplitOps SplitWrites SplitLinks Doublets Obs DoubletsOK Hist Claims TreeImpl UnitHist SplitHist
  SplitClaims UnitClaims DefaultClaims SplitDefaults.
Import ListNotations.
Open Scope N_scope.

(** From any history that left the store empty, the test ends with an empty store or with a
    creation that found no memory or no index left; it never fails an assertion. *)
Theorem C58_random_unit :
  forall cf tops lops st d l,
  let U := unit_links cf tops lops in
  unit_env cf tops lops -> cfg_room cf -> u_hist cf tops lops st d -> (forall i, no_link U st i) ->
  Forall (Forall drawn) l ->
  exists st' r, rt_run cf U l st = Val (st', r) /\
    match r with
    | Ok _ => (exists d', u_hist cf tops lops st' d') /\ forall i, no_link U st' i
    | Err e => exists fs, In fs l /\
        (e = AllocFailed \/ (e = LimitReached (c_iend cf) /\ c_iend cf < N.of_nat (length fs)))
    end.
Proof. exact L_C58_random_unit. Qed.
Print Assumptions C58_random_unit.

Theorem C58_random_split :
  forall cf tops lops st d l,
  let SL := split_links cf tops lops in
  unit_env cf tops lops -> c_iend cf + 1 + c_step cf <= c_tmax cf -> s_hist cf tops lops st d ->
  (forall i, no_link SL st i) -> Forall (Forall drawn) l ->
  exists st' r, rt_run cf SL l st = Val (st', r) /\
    match r with
    | Ok _ => (exists d', s_hist cf tops lops st' d') /\ forall i, no_link SL st' i
    | Err e => exists fs, In fs l /\
        (e = AllocFailed \/ (e = LimitReached (c_iend cf) /\ c_iend cf < N.of_nat (length fs)))
    end.
Proof. exact L_C58_random_split. Qed.
Print Assumptions C58_random_split.

(** The example draws do what they are named after: the second cycle ends with six links. *)
Theorem C58_nonvacuous :
  u_hist ex_cf ref_tree_ops ref_list_ops ex_start [] /\ (forall i, no_link ex_U ex_start i) /\
  s_hist ex_cf ref_tree_ops ref_list_ops ex_sstart [] /\ (forall i, no_link ex_S ex_sstart i) /\
  Forall (Forall drawn) ex_draws /\
  match rt_steps ex_cf ex_U (nth 1 ex_draws []) ex_start 0, rt_steps ex_cf ex_S (nth 1 ex_draws []) ex_sstart 0 with
  | Val (st, Ok 6), Val (st', Ok 6) =>
      is_link ex_U st 3 1 2 /\ is_link ex_U st 4 3 1 /\ is_link ex_U st 6 5 1 /\
      is_link ex_S st' 3 1 2 /\ is_link ex_S st' 4 3 1 /\ is_link ex_S st' 6 5 1
  | _, _ => False
  end /\
  left_links (rt_run ex_cf ex_U ex_draws ex_start) (fun st => li_count ex_U st []) = Some (Val 0, Ok tt) /\
  left_links (rt_run ex_cf ex_S ex_draws ex_sstart) (fun st => li_count ex_S st []) = Some (Val 0, Ok tt).
Proof. exact L_C58_nonvacuous. Qed.
Print Assumptions C58_nonvacuous.
