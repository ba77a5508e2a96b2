(** The default methods on stores that are used on after interrupted calls (C87). *)
From Coq Require Import NArith List Bool Lia Permutation Sorted.
From Verif Require Import CrashDefaults Base Trees Lists TreeInv Spec Iface UnitModel UnitInv UnitOps UnitLinks LinkModel SplitModel Forest
  SplitInv SplitReads SplitOps SplitWrites SplitLinks Doublets DoubletsOK Obs Hist Claims UnitHist TreeImpl SplitHist
  Crash CrashWrites CrashClaims Scars SplitCrash SplitCrashClaims SplitScars Decorators GoodStore DecoratorClaims Stacks.
From Verif Require AfterCrash SplitLife SplitFree SplitAfterCrash.
Import AfterCrash.
Import SplitFree(but, in_but, but_out, but_in, reckoned).
Import SplitAfterCrash(clife, cl_step, cs_update, clife_inv, c_range, c_linked, c_link, may_update, Build_may_update).
Import ListNotations.
Open Scope N_scope.

(** create_link and create_point give a new link and change no other, and the index is not that
    of a lost link. *)
Theorem C87_unit_create_link :
  forall cf tops lops st L C s t,
  let U := unit_links cf tops lops in
  unit_env cf tops lops -> cfg_room cf -> life cf tops lops st L C ->
  not_created U st (d_create_link U s t st) \/
  exists st' n, adds cf U st st' n s t /\ (forall x y g, ~ L n x y g) /\ d_create_link U s t st = Val (st', Ok n) /\ life cf tops lops st' L C.
Proof. exact L_C87_unit_create_link. Qed.
Print Assumptions C87_unit_create_link.

Theorem C87_unit_create_point :
  forall cf tops lops st L C,
  let U := unit_links cf tops lops in
  unit_env cf tops lops -> cfg_room cf -> life cf tops lops st L C ->
  not_created U st (d_create_point U st) \/
  exists st' n, adds cf U st st' n n n /\ (forall x y g, ~ L n x y g) /\ d_create_point U st = Val (st', Ok n) /\ life cf tops lops st' L C.
Proof. exact L_C87_unit_create_point. Qed.
Print Assumptions C87_unit_create_point.

(** get_or_create gives a link that has the pair, and makes a new one only if none has it: a lost
    link is not given out. *)
Theorem C87_unit_get_or_create :
  forall cf tops lops st L C s t,
  let U := unit_links cf tops lops in
  unit_env cf tops lops -> life cf tops lops st L C -> s <> 0 -> s <> c_any cf -> t <> c_any cf ->
  (exists i, is_link U st i s t /\ d_search cf U st s t = Val (Some i) /\ d_get_or_create cf U s t st = Val (st, Ok i)) \/
  ((forall i, ~ is_link U st i s t) /\ d_search cf U st s t = Val None /\ d_get_or_create cf U s t st = d_create_link U s t st).
Proof. exact L_C87_unit_get_or_create. Qed.
Print Assumptions C87_unit_get_or_create.

(** What usages, count_usages and has_usages answer: the links with source [i]; of those with
    target [i], the ones that the tree of targets has; and lost links that it still has.  If
    link [i] has itself as target and is missing from that tree, it is subtracted from the count
    although it was not counted. *)
Theorem C87_unit_usages :
  forall cf tops lops st L C i s t,
  let U := unit_links cf tops lops in
  unit_env cf tops lops -> cfg_room cf -> life cf tops lops st L C -> is_link U st i s t ->
  exists L1 L2 e, NoDup L1 /\ NoDup L2 /\
    (forall l, In l L1 <-> is_link U st (l_index l) (l_source l) (l_target l) /\ l_index l <> i /\ l_source l = i) /\
    (forall l, In l L2 <-> l_index l <> i /\ l_target l = i /\
       ((is_link U st (l_index l) (l_source l) (l_target l) /\ ~ C (l_index l)) \/ L (l_index l) (l_source l) (l_target l) true)) /\
    (e = 1 /\ t = i /\ C i \/ e = 0 /\ (t = i -> ~ C i)) /\
    let n := reckoned (N.of_nat (length L1)) (N.of_nat (length L2)) 0 e in
    d_count_usages cf U st i = (let* n := n in Val (Ok n)) /\
    d_has_usages cf U st i = (let* n := n in Val (negb (n =? 0))) /\
    d_usages cf U st i = (let* _ := n in Val (Ok (map l_index (L1 ++ L2)))).
Proof. exact L_C87_unit_usages. Qed.
Print Assumptions C87_unit_usages.

Theorem C87_unit_usages_missing :
  forall cf tops lops st L C i,
  let U := unit_links cf tops lops in
  unit_env cf tops lops -> life cf tops lops st L C -> no_link U st i ->
  d_usages cf U st i = Val (Err (NotExists i)) /\ d_count_usages cf U st i = Val (Err (NotExists i)) /\ d_has_usages cf U st i = Val false.
Proof. exact L_C87_unit_usages_missing. Qed.
Print Assumptions C87_unit_usages_missing.

(** delete_usages deletes the users of [i], unless a lost link that the tree of targets still has
    is in the way, or a link that is twice a user. *)
Theorem C87_unit_delete_usages_partial :
  forall cf tops lops st L C i,
  let U := unit_links cf tops lops in
  unit_env cf tops lops -> life cf tops lops st L C -> i <> 0 -> i <> c_any cf ->
  (forall l, user U st i l -> may_change cf tops lops st L C (l_index l)) ->
  (forall l s, L l s i true -> l = i) -> (forall x, x <> i -> ~ is_link U st x i i) ->
  (forall l s t g w, L l s t g -> user U st i w -> l < l_index w ->
     exists k, l < k /\ ((exists x y, is_link U st k x y /\ ~ user U st i (mkLink k x y)) \/ exists x y b, L k x y b)) ->
  exists st' W, life cf tops lops st' L C /\ NoDup W /\ (forall l, In l W <-> user U st i l) /\ removed U st st' W /\
    (forall H B (h : uwrite H B) x, d_delete_usages_with cf U h i st x = Val (st', told h W x, Ok tt)) /\
    d_delete_usages cf U i st = Val (st', Ok tt).
Proof. exact L_C87_unit_delete_usages_partial. Qed.
Print Assumptions C87_unit_delete_usages_partial.

(** With such a lost link in the way the call fails and leaves at least the links that only have
    [i] as source. *)
Theorem C87_unit_delete_usages_lost :
  forall cf tops lops st L C i l0 s0,
  let U := unit_links cf tops lops in
  unit_env cf tops lops -> life cf tops lops st L C -> i <> 0 -> i <> c_any cf -> L l0 s0 i true -> l0 <> i ->
  (forall l, user U st i l -> l_target l = i -> ~ C (l_index l) -> may_change cf tops lops st L C (l_index l)) ->
  (forall l s t g w, L l s t g -> user U st i w -> l_target w = i -> l < l_index w -> exists k x y b, l < k /\ L k x y b) ->
  exists st' W j s, L j s i true /\ j <> i /\ life cf tops lops st' L C /\ NoDup W /\
    (forall l, In l W -> user U st i l /\ l_target l = i) /\ removed U st st' W /\
    (forall H B (h : uwrite H B) x, d_delete_usages_with cf U h i st x = Val (st', told h W x, Err (NotExists j))) /\
    d_delete_usages cf U i st = Val (st', Err (NotExists j)).
Proof. exact L_C87_unit_delete_usages_lost. Qed.
Print Assumptions C87_unit_delete_usages_lost.

(** create_link gives a new link and changes no other; a link made with a source and no target
    cannot be read afterwards. *)
Theorem C87_split_create_link :
  forall cf tops lops st D sP tP s t,
  let S := split_links cf tops lops in
  unit_env cf tops lops -> cfg_room cf -> clife cf tops lops st D sP tP ->
  not_created S st (d_create_link S s t st) \/
  exists st' n, D n = None /\ 1 <= n <= c_iend cf /\ no_link S st n /\ frame S st st' n /\
    (s = 0 \/ t <> 0 -> adds cf S st st' n s t) /\ (s <> 0 -> t = 0 -> no_link S st' n) /\
    clife cf tops lops st' (upd D n (Some (s, t))) (upd sP n (home_with D tP n s)) (upd tP n (home_with D tP n t)) /\
    d_create_link S s t st = Val (st', Ok n).
Proof. exact L_C87_split_create_link. Qed.
Print Assumptions C87_split_create_link.

Theorem C87_split_create_point :
  forall cf tops lops st D sP tP,
  let S := split_links cf tops lops in
  unit_env cf tops lops -> cfg_room cf -> clife cf tops lops st D sP tP ->
  not_created S st (d_create_point S st) \/
  exists st' n, D n = None /\ adds cf S st st' n n n /\
    clife cf tops lops st' (upd D n (Some (n, n))) (upd sP n (Int n)) (upd tP n (Int n)) /\ d_create_point S st = Val (st', Ok n).
Proof. exact L_C87_split_create_point. Qed.
Print Assumptions C87_split_create_point.

(** get_or_create gives the link that the trees of the two ends have, makes one if they have none,
    and is undefined behaviour if they have one that cannot be read. *)
Theorem C87_split_get_or_create :
  forall cf tops lops st D sP tP s t,
  let S := split_links cf tops lops in
  unit_env cf tops lops -> clife cf tops lops st D sP tP -> s <> 0 -> t <> 0 -> s <> c_any cf -> t <> c_any cf ->
  (exists i, is_link S st i s t /\ d_search cf S st s t = Val (Some i) /\ d_get_or_create cf S s t st = Val (st, Ok i)) \/
  (exists i, D i = Some (s, t) /\ no_link S st i /\ sP i = home D tP s /\ d_search cf S st s t = UB /\ d_get_or_create cf S s t st = UB) \/
  ((forall i, D i = Some (s, t) -> sP i <> home D tP s \/ tP i <> home D tP t) /\
   d_search cf S st s t = Val None /\ d_get_or_create cf S s t st = d_create_link S s t st).
Proof. exact L_C87_split_get_or_create. Qed.
Print Assumptions C87_split_get_or_create.

(** What usages, count_usages and has_usages answer: the stored links, readable or not, that are
    in the tree of sources or of targets of [i]. *)
Theorem C87_split_usages :
  forall cf tops lops st D sP tP i s t,
  let S := split_links cf tops lops in
  unit_env cf tops lops -> cfg_room cf -> clife cf tops lops st D sP tP -> is_link S st i s t ->
  exists L1 L2 e1 e2, NoDup L1 /\ NoDup L2 /\
    (forall l, In l L1 <-> D (l_index l) = Some (l_source l, l_target l) /\ l_index l <> i /\ l_source l = i /\ sP (l_index l) = Int i) /\
    (forall l, In l L2 <-> D (l_index l) = Some (l_source l, l_target l) /\ l_index l <> i /\ l_target l = i /\ tP (l_index l) = Int i) /\
    (e1 = 1 /\ s = i /\ sP i <> Int i \/ e1 = 0 /\ (s = i -> sP i = Int i)) /\
    (e2 = 1 /\ t = i /\ tP i <> Int i \/ e2 = 0 /\ (t = i -> tP i = Int i)) /\
    let n := reckoned (N.of_nat (length L1)) (N.of_nat (length L2)) e1 e2 in
    d_count_usages cf S st i = (let* n := n in Val (Ok n)) /\
    d_has_usages cf S st i = (let* n := n in Val (negb (n =? 0))) /\
    d_usages cf S st i = (let* _ := n in Val (Ok (map l_index (L1 ++ L2)))).
Proof. exact L_C87_split_usages. Qed.
Print Assumptions C87_split_usages.

Theorem C87_split_usages_missing :
  forall cf tops lops st D sP tP i,
  let S := split_links cf tops lops in
  unit_env cf tops lops -> clife cf tops lops st D sP tP -> no_link S st i ->
  d_usages cf S st i = Val (Err (NotExists i)) /\ d_count_usages cf S st i = Val (Err (NotExists i)) /\ d_has_usages cf S st i = Val false.
Proof. exact L_C87_split_usages_missing. Qed.
Print Assumptions C87_split_usages_missing.

(** delete_usages deletes the links it finds and leaves the others where they are, except that
    the users of a deleted link become external. *)
Theorem C87_split_delete_usages_partial :
  forall cf tops lops st D sP tP i,
  let S := split_links cf tops lops in
  unit_env cf tops lops -> clife cf tops lops st D sP tP -> linked S st i -> sole D ->
  (forall l, found D sP tP i l -> filed D sP tP l) -> (forall x, x <> i -> D x <> Some (i, i)) ->
  (forall l w, D l <> None -> no_link S st l -> found D sP tP i w -> l < l_index w ->
     exists k x y, l < k /\ D k = Some (x, y) /\ ~ found D sP tP i (mkLink k x y)) ->
  exists st' W D' sP' tP', clife cf tops lops st' D' sP' tP' /\ NoDup W /\ (forall l, In l W <-> found D sP tP i l) /\
    (forall l, In l W -> user S st i l) /\ removed S st st' W /\
    (forall j, D' j = remaining (map l_index W) D j) /\
    (forall j, sP' j = vacated (map l_index W) sP j) /\ (forall j, tP' j = vacated (map l_index W) tP j) /\
    (forall H B (h : uwrite H B) x, d_delete_usages_with cf S h i st x = Val (st', told h W x, Ok tt)) /\
    d_delete_usages cf S i st = Val (st', Ok tt).
Proof. exact L_C87_split_delete_usages_partial. Qed.
Print Assumptions C87_split_delete_usages_partial.

(** With an unreadable link among those found, all that have [i] as target are deleted, perhaps
    some that have it as source, and then the call fails. *)
Theorem C87_split_delete_usages_lost :
  forall cf tops lops st D sP tP i l0 t0,
  let S := split_links cf tops lops in
  unit_env cf tops lops -> clife cf tops lops st D sP tP -> linked S st i -> sole D ->
  (forall l, found D sP tP i l -> linked S st (l_index l) -> filed D sP tP l) -> (forall x, x <> i -> D x <> Some (i, i)) ->
  (forall l w, D l <> None -> no_link S st l -> found D sP tP i w -> linked S st (l_index w) -> l < l_index w ->
     exists k x y, l < k /\ D k = Some (x, y) /\ ~ (found D sP tP i (mkLink k x y) /\ linked S st k)) ->
  D l0 = Some (i, t0) -> sP l0 = home D tP i -> no_link S st l0 ->
  exists st' W D' sP' tP' j t, D j = Some (i, t) /\ no_link S st j /\ clife cf tops lops st' D' sP' tP' /\ NoDup W /\
    (forall l, In l W -> found D sP tP i l /\ user S st i l) /\
    (forall l, found D sP tP i l -> l_target l = i -> In l W) /\ removed S st st' W /\
    (forall j, D' j = remaining (map l_index W) D j) /\
    (forall j, sP' j = vacated (map l_index W) sP j) /\ (forall j, tP' j = vacated (map l_index W) tP j) /\
    (forall H B (h : uwrite H B) x, d_delete_usages_with cf S h i st x = Val (st', told h W x, Err (NotExists j))) /\
    d_delete_usages cf S i st = Val (st', Err (NotExists j)).
Proof. exact L_C87_split_delete_usages_lost. Qed.
Print Assumptions C87_split_delete_usages_lost.

Theorem C87_unit_nonvacuous :
  exists st L C, life ex_cf ref_tree_ops ref_list_ops st L C /\ cfg_room ex_cf /\
  L 2 1 3 true /\ no_link ex_U st 2 /\ is_link ex_U st 1 1 1 /\ is_link ex_U st 3 1 2 /\
  (exists st', d_create_link ex_U 1 3 st = Val (st', Ok 5) /\ is_link ex_U st' 5 1 3) /\
  (exists st', d_create_point ex_U st = Val (st', Ok 5) /\ is_link ex_U st' 5 5 5) /\
  d_get_or_create ex_cf ex_U 1 2 st = Val (st, Ok 3) /\ (exists st', d_get_or_create ex_cf ex_U 1 3 st = Val (st', Ok 5)) /\
  d_usages ex_cf ex_U st 1 = Val (Ok [3]) /\ d_count_usages ex_cf ex_U st 1 = Val (Ok 1) /\
  user ex_U st 1 (mkLink 3 1 2) /\
  (forall l, user ex_U st 1 l -> may_change ex_cf ref_tree_ops ref_list_ops st L C (l_index l)) /\
  (forall l s, L l s 1 true -> l = 1) /\ (forall x, x <> 1 -> ~ is_link ex_U st x 1 1) /\
  (forall l s t g w, L l s t g -> user ex_U st 1 w -> l < l_index w ->
     exists k, l < k /\ ((exists x y, is_link ex_U st k x y /\ ~ user ex_U st 1 (mkLink k x y)) \/ exists x y b, L k x y b)) /\
  (forall l, user ex_U st 3 l -> l_target l = 3 -> ~ C (l_index l) -> may_change ex_cf ref_tree_ops ref_list_ops st L C (l_index l)) /\
  (forall l s t g w, L l s t g -> user ex_U st 3 w -> l_target w = 3 -> l < l_index w -> exists k x y b, l < k /\ L k x y b).
Proof. exact L_C87_unit_nonvacuous. Qed.
Print Assumptions C87_unit_nonvacuous.

(** The users of a link include one that cannot be read, and the calls that go through the users
    fail on it: delete_usages, rebase and rebase_and_delete. *)
Theorem C87_unit_refuted :
  exists st L C, life ex_cf ref_tree_ops ref_list_ops st L C /\
  linked ex_U st 3 /\ no_link ex_U st 2 /\ (forall l, ~ user ex_U st 3 l) /\
  d_usages ex_cf ex_U st 3 = Val (Ok [2]) /\ d_count_usages ex_cf ex_U st 3 = Val (Ok 1) /\
  d_delete_usages ex_cf ex_U 3 st = Val (st, Err (NotExists 2)) /\
  d_rebase ex_cf ex_U 3 4 st = Val (st, Err (NotExists 2)) /\ d_rebase_and_delete ex_cf ex_U 3 4 st = Val (st, Err (NotExists 2)).
Proof. exact L_C87_unit_refuted. Qed.
Print Assumptions C87_unit_refuted.

Theorem C87_unit_panics :
  exists st L C, life ex_cf ref_tree_ops ref_list_ops st L C /\ is_link ex_U st 2 2 2 /\ C 2 /\
  d_count_usages ex_cf ex_U st 2 = Panic /\ d_has_usages ex_cf ex_U st 2 = Panic /\ d_usages ex_cf ex_U st 2 = Panic.
Proof. exact L_C87_unit_panics. Qed.
Print Assumptions C87_unit_panics.

(** In the two-memory store of [SplitAfterCrash.ex_half] links 1 and 3 are (1,1) and (2,1), and
    link 2, stored as (3,1), cannot be read. *)
Theorem C87_split_nonvacuous :
  exists st D sP tP,
  clife ex_cf ref_tree_ops ref_list_ops st D sP tP /\ cfg_room ex_cf /\ D 2 = Some (3, 1) /\ no_link ex_S st 2 /\
  is_link ex_S st 1 1 1 /\ is_link ex_S st 3 2 1 /\
  (exists st', d_create_link ex_S 3 3 st = Val (st', Ok 4) /\ is_link ex_S st' 4 3 3) /\
  (exists st', d_create_link ex_S 3 0 st = Val (st', Ok 4) /\ no_link ex_S st' 4) /\
  (exists st', d_create_point ex_S st = Val (st', Ok 4) /\ is_link ex_S st' 4 4 4) /\
  d_get_or_create ex_cf ex_S 1 1 st = Val (st, Ok 1) /\ (exists st', d_get_or_create ex_cf ex_S 1 3 st = Val (st', Ok 4)) /\
  d_usages ex_cf ex_S st 1 = Val (Ok [3]) /\ d_count_usages ex_cf ex_S st 1 = Val (Ok 1).
Proof. exact L_C87_split_nonvacuous. Qed.
Print Assumptions C87_split_nonvacuous.

(** There usages names a link that get does not show, delete_usages and rebase fail on it, and
    asking for its pair is undefined behaviour. *)
Theorem C87_split_refuted :
  exists st D sP tP, clife ex_cf ref_tree_ops ref_list_ops st D sP tP /\ no_link ex_S st 2 /\
  d_usages ex_cf ex_S st 3 = Val (Ok [2]) /\ d_count_usages ex_cf ex_S st 3 = Val (Ok 1) /\
  d_delete_usages ex_cf ex_S 3 st = Val (st, Err (NotExists 2)) /\ d_rebase ex_cf ex_S 3 1 st = Val (st, Err (NotExists 2)) /\
  d_search ex_cf ex_S st 3 1 = UB /\ d_get_or_create ex_cf ex_S 3 1 st = UB.
Proof. exact L_C87_split_refuted. Qed.
Print Assumptions C87_split_refuted.

Theorem C87_split_delete_usages_nonvacuous :
  exists st D sP tP,
  clife ex_cf ref_tree_ops ref_list_ops st D sP tP /\ sole D /\ linked ex_S st 4 /\ linked ex_S st 3 /\
  (forall x, D x <> Some (4, 4) \/ x = 4) /\ (forall x, D x <> Some (3, 3)) /\
  (forall l, found D sP tP 4 l <-> l = mkLink 3 3 4 \/ l = mkLink 5 4 3) /\ (forall l, found D sP tP 4 l -> filed D sP tP l) /\
  (forall l, found D sP tP 3 l <-> l = mkLink 2 3 1 \/ l = mkLink 5 4 3) /\ filed D sP tP (mkLink 5 4 3) /\
  no_link ex_S st 2 /\ sP 2 = home D tP 3 /\ is_link ex_S st 6 6 6 /\
  (exists st', d_delete_usages ex_cf ex_S 4 st = Val (st', Ok tt) /\ no_link ex_S st' 3 /\ no_link ex_S st' 5 /\ is_link ex_S st' 4 4 4) /\
  (exists st', d_delete_usages ex_cf ex_S 3 st = Val (st', Err (NotExists 2)) /\ no_link ex_S st' 5 /\ is_link ex_S st' 3 3 4).
Proof. exact L_C87_split_delete_usages_nonvacuous. Qed.
Print Assumptions C87_split_delete_usages_nonvacuous.
