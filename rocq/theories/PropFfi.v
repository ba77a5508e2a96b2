(** Properties C31, C32, C46, C49: the C interface and the link value. *)
From Coq Require Import NArith Arith List Bool Lia Permutation Sorted.
From Verif Require Import FfiClaims Base Trees Lists TreeImpl Spec Iface Doublets DoubletsOK Obs Hist Claims Decorators
  UnitModel UnitInv UnitOps UnitLinks UnitHist UnitClaims DefaultClaims GoodStore DecoratorClaims LinkModel Ffi.
Import ListNotations.
Open Scope N_scope.

(** update, delete, each: Continue leads to Continue and Break to Break (update and each
    treat every other value as Break, delete as Continue); a failing update or delete returns
    the error constant, changes nothing and makes no call.  Missing: create, which is inverted
    (next theorem). *)
Theorem C31_callbacks_partial :
  forall cf fc S (I : LinksI S) G st,
  good_store cf I G -> G st -> lc_continue fc <> lc_break fc ->
  (forall p lr p' ls q ch i s t, points_to p lr q -> points_to p' ls ch ->
     qget q 0 = Val i -> qget ch 1 = Val s -> qget ch 2 = Val t -> linked I st i -> separable I st i ->
     exists st' b, G st' /\ is_link I st' i s t /\ frame I st st' i /\
       forall H (cb : ccallback H) x, f_update fc I cb p lr p' ls st x =
         Val (st', fst (cb x b (mkLink i s t)),
              if snd (cb x b (mkLink i s t)) =? lc_continue fc then lc_continue fc else lc_break fc)) /\
  (forall p len q i s t, points_to p len q -> qget q 0 = Val i -> is_link I st i s t -> separable I st i ->
     exists st', G st' /\ no_link I st' i /\ frame I st st' i /\
       forall H (cb : ccallback H) x, f_delete fc I cb p len st x =
         Val (st', fst (cb x (mkLink i s t) nothing),
              if snd (cb x (mkLink i s t) nothing) =? lc_break fc then lc_break fc else lc_continue fc)) /\
  (forall p len q, points_to p len q -> (length q <= 3)%nat ->
     exists L, f_count I p len st = Val (N.of_nat (length L)) /\
       forall H (cb : ecallback H) x, exists x' o, visit_result (ecb fc cb) x L (x', o) /\
         f_each fc I cb p len st x = Val (x', match o with None => lc_continue fc | Some _ => lc_break fc end)) /\
  (forall p lr p' ls q ch i s t, points_to p lr q -> points_to p' ls ch ->
     qget q 0 = Val i -> qget ch 1 = Val s -> qget ch 2 = Val t -> no_link I st i ->
     forall H (cb : ccallback H) x, f_update fc I cb p lr p' ls st x = Val (st, x, lc_error fc)) /\
  (forall p len q i, points_to p len q -> qget q 0 = Val i -> no_link I st i ->
     forall H (cb : ccallback H) x, f_delete fc I cb p len st x = Val (st, x, lc_error fc)).
Proof. exact L_C31_callbacks_partial. Qed.
Print Assumptions C31_callbacks_partial.

Theorem C31_nonvacuous :
  exists st,
  good_store ex_cf ex_U (fun st => exists d, u_hist ex_cf ref_tree_ops ref_list_ops st d) /\
  (exists d, u_hist ex_cf ref_tree_ops ref_list_ops st d) /\ lc_continue ex_fc <> lc_break ex_fc /\
  linked ex_U st 3 /\ separable ex_U st 3 /\
  points_to (Some [3; 7]) 1 [3] /\ points_to (Some [3; 2; 2]) 3 [3; 2; 2] /\
  out_res (f_update ex_fc ex_U (fun (x : N) _ _ => (x + 1, 900)) (Some [3; 7]) 1 (Some [3; 2; 2]) 3 st 5) = Some (6, 900) /\
  out_res (f_update ex_fc ex_U (fun (x : N) _ _ => (x + 1, 901)) (Some [3; 7]) 1 (Some [3; 2; 2]) 3 st 5) = Some (6, 901) /\
  out_res (f_delete ex_fc ex_U (fun (x : N) _ _ => (x + 1, 901)) (Some [3; 7]) 1 st 5) = Some (6, 901) /\
  out_res (f_delete ex_fc ex_U (fun (x : N) _ _ => (x + 1, 901)) (Some [9]) 1 st 5) = Some (5, 902) /\
  f_each ex_fc ex_U (fun x l => (x ++ [l_index l], if l_index l =? 2 then 901 else 900)) None 0 st [] = Val ([1; 2], 901) /\
  f_each ex_fc ex_U (fun x l => (x ++ [l_index l], 900)) None 0 st [] = Val ([1; 2; 3], 900).
Proof. exact L_C31_nonvacuous. Qed.
Print Assumptions C31_nonvacuous.

(** In every state with room, a create whose callback returns Continue reports Break, and one
    whose callback returns Break reports Continue. *)
Theorem C31_create_inverted :
  forall cf fc S (I : LinksI S) G st p len q st1 x1 f,
  good_store cf I G -> G st -> points_to p len q ->
  li_create I unit (fun x _ _ => (x, Continue)) q st tt = Val (st1, x1, Ok f) ->
  exists i, adds cf I st st1 i 0 0 /\
    forall H (cb : ccallback H) x, f_create fc I cb p len st x =
      Val (st1, fst (cb x nothing (mkLink i 0 0)),
           if snd (cb x nothing (mkLink i 0 0)) =? lc_continue fc then lc_break fc else lc_continue fc).
Proof. exact L_C31_create_inverted. Qed.
Print Assumptions C31_create_inverted.

Theorem C31_create_refuted :
  exists st d,
  u_hist ex_cf ref_tree_ops ref_list_ops st d /\
  out_res (f_create ex_fc ex_U (fun (x : N) _ _ => (x + 1, lc_continue ex_fc)) None 0 st 5) = Some (6, lc_break ex_fc) /\
  out_res (f_create ex_fc ex_U (fun (x : N) _ _ => (x + 1, lc_break ex_fc)) None 0 st 5) = Some (6, lc_continue ex_fc).
Proof. exact L_C31_create_refuted. Qed.
Print Assumptions C31_create_refuted.

(** smart_create and smart_update return the address of the link, or the error constant and
    then change no link. *)
Theorem C31_smart :
  forall cf fc S (I : LinksI S) G st,
  good_store cf I G -> G st ->
  (exists st', G st' /\
     ((same_links I st st' /\ f_smart_create fc I st = Val (st', lc_error fc)) \/
      exists i, adds cf I st st' i 0 0 /\ f_smart_create fc I st = Val (st', i))) /\
  (forall i s t, linked I st i -> separable I st i ->
     exists st', G st' /\ is_link I st' i s t /\ frame I st st' i /\ f_smart_update fc I i s t st = Val (st', i)) /\
  (forall i s t, no_link I st i -> f_smart_update fc I i s t st = Val (st, lc_error fc)).
Proof. exact L_C31_smart. Qed.
Print Assumptions C31_smart.

Theorem C31_smart_nonvacuous :
  exists st d, u_hist ex_cf ref_tree_ops ref_list_ops st d /\ distinct_pairs ex_U st /\
  linked ex_U st 3 /\ no_link ex_U st 9 /\
  match f_smart_create ex_fc ex_U st with Val (_, v) => v | _ => 0 end = 4 /\
  match f_smart_update ex_fc ex_U 3 1 3 st with Val (_, v) => v | _ => 0 end = 3 /\
  match f_smart_update ex_fc ex_U 9 1 1 st with Val (_, v) => v | _ => 0 end = lc_error ex_fc.
Proof. exact L_C31_smart_nonvacuous. Qed.
Print Assumptions C31_smart_nonvacuous.

(** * C32 Constants *)
Theorem C32_round_trip :
  forall c,
  from_c (to_c c) = c.
Proof. exact L_C32_round_trip. Qed.
Print Assumptions C32_round_trip.

(** The C struct comes back too, except for a range without the marker. *)
Theorem C32_round_trip_c :
  forall c,
  cc_marker c = true \/ cc_external c = (0, 0) -> to_c (from_c c) = c.
Proof. exact L_C32_round_trip_c. Qed.
Print Assumptions C32_round_trip_c.

Theorem C32_nonvacuous :
  lc_external (from_c (to_c ex_fc)) = Some (300, 400) /\
  cc_marker (to_c ex_fc) = true /\ cc_external (to_c ex_fc) = (300, 400) /\
  lc_external (from_c (to_c (mkLC 0 1 2 0 900 901 903 200 904 902 (1, 100) None))) = None.
Proof. exact L_C32_nonvacuous. Qed.
Print Assumptions C32_nonvacuous.

(** Round trip, predicates, and the panic on short slices.  Missing: longer slices (next
    theorem). *)
Theorem C46_links_partial :
  (forall l, link_from_slice (link_as_slice l) = Val l) /\
  (forall v l, length v = 3%nat -> link_from_slice v = Val l -> link_as_slice l = v) /\
  (forall v, length v = 3%nat -> exists l, link_from_slice v = Val l) /\
  (forall v, (length v < 3)%nat -> link_from_slice v = Panic) /\
  (forall l, link_is_null l = true <-> l = mkLink 0 0 0) /\
  (forall i s t, link_is_full (mkLink i s t) = true <-> i = s /\ i = t) /\
  (forall i s t, link_is_partial (mkLink i s t) = true <-> i = s \/ i = t) /\
  (forall l, link_is_full l = true -> link_is_partial l = true) /\
  (forall v, link_is_full (link_point v) = true).
Proof. exact L_C46_links_partial. Qed.
Print Assumptions C46_links_partial.

(** from_slice is safe code, but every slice of more than three elements is undefined behaviour. *)
Theorem C46_long_slice_ub :
  forall v,
  (3 < length v)%nat -> link_from_slice v = UB.
Proof. exact L_C46_long_slice_ub. Qed.
Print Assumptions C46_long_slice_ub.

Theorem C46_from_slice_refuted :
  exists v, (3 <= length v)%nat /\ link_from_slice v = UB.
Proof. exact L_C46_from_slice_refuted. Qed.
Print Assumptions C46_from_slice_refuted.

(** The handle returned by a successful New is not usable: every exported function works on
    a box at that address, but New returns the address of the store itself. *)
Theorem C49_new_handle_ub :
  forall S (hp hp' : heap S) p h s,
  p <> 0 -> f_new hp p (Some s) = (hp', h) ->
  h <> 0 /\
  (forall A (f : S -> out (S * A)), on_handle hp' h f = UB) /\
  (forall A (f : S -> out A), read_handle hp' h f = UB).
Proof. exact L_C49_new_handle_ub. Qed.
Print Assumptions C49_new_handle_ub.

Theorem C49_new_handle_refuted :
  exists (hp hp' : heap ust) h,
  (forall i, hp i = None) /\ f_new hp 4096 (Some (ex_st ex3)) = (hp', h) /\ h <> 0 /\
  read_handle hp' h (fun st => f_count ex_U None 0 st) = UB /\
  f_count ex_U None 0 (ex_st ex3) = Val 3.
Proof. exact L_C49_new_handle_refuted. Qed.
Print Assumptions C49_new_handle_refuted.

(** With a box at the handle the same call reaches the store, and null is a panic. *)
Theorem C49_boxed_handle_partial :
  forall S (hp : heap S) h p s A (f : S -> out A),
  h <> 0 -> hp h = Some (HBox p) -> hp p = Some (HStore s) ->
  read_handle hp h f = f s /\ read_handle hp 0 f = Panic.
Proof. exact L_C49_boxed_handle_partial. Qed.
Print Assumptions C49_boxed_handle_partial.

(** With boxes at the handles, a modifying call replaces the store behind its handle and leaves
    the stores behind other boxes alone.  Missing: handles as New returns them. *)
Theorem C49_boxed_calls_partial :
  forall S (hp : heap S) h p s A (f : S -> out (S * A)) s' a,
  h <> 0 -> hp h = Some (HBox p) -> hp p = Some (HStore s) -> f s = Val (s', a) ->
  exists hp', on_handle hp h f = Val (hp', a) /\
    (forall B (g : S -> out B), read_handle hp' h g = g s') /\
    (forall h2 p2 s2 B (g : S -> out B), h2 <> 0 -> hp h2 = Some (HBox p2) -> hp p2 = Some (HStore s2) -> p2 <> p ->
       read_handle hp' h2 g = g s2) /\
    (forall h2 B (g : S -> out B), h2 <> 0 -> hp h2 = Some (HBox p) -> read_handle hp' h2 g = g s').
Proof. exact L_C49_boxed_calls_partial. Qed.
Print Assumptions C49_boxed_calls_partial.

Theorem C49_boxed_calls_nonvacuous :
  exists (hp : heap ust) hp' v,
  hp 8 = Some (HBox 4096) /\ hp 16 = Some (HBox 8192) /\
  hp 4096 = Some (HStore (ex_st ex3)) /\ hp 8192 = Some (HStore (ex_st ex3)) /\
  on_handle hp 8 (f_smart_create ex_fc ex_U) = Val (hp', v) /\ v = 4 /\
  read_handle hp' 8 (fun st => f_count ex_U None 0 st) = Val 4 /\
  read_handle hp' 16 (fun st => f_count ex_U None 0 st) = Val 3.
Proof. exact L_C49_boxed_calls_nonvacuous. Qed.
Print Assumptions C49_boxed_calls_nonvacuous.

(** With a box at the handle, Drop closes the store behind it: every call through a handle of
    that store, a second Drop included, is undefined behaviour, and the stores behind other
    boxes are as they were.  Null is a panic.  Missing: handles as New returns them. *)
Theorem C49_drop_partial :
  forall S (hp : heap S) h p s,
  h <> 0 -> hp h = Some (HBox p) -> hp p = Some (HStore s) ->
  f_drop hp 0 = Panic /\
  exists hp', f_drop hp h = Val hp' /\
    (forall h2, h2 <> 0 -> hp h2 = Some (HBox p) ->
       f_drop hp' h2 = UB /\
       (forall A (f : S -> out (S * A)), on_handle hp' h2 f = UB) /\
       (forall A (f : S -> out A), read_handle hp' h2 f = UB)) /\
    (forall h2 p2 s2, h2 <> 0 -> hp h2 = Some (HBox p2) -> hp p2 = Some (HStore s2) -> p2 <> p ->
       hp' h2 = Some (HBox p2) /\ hp' p2 = Some (HStore s2)).
Proof. exact L_C49_drop_partial. Qed.
Print Assumptions C49_drop_partial.

(** The handles New returns cannot be dropped nor asked for their constants either. *)
Theorem C49_new_drop_ub :
  forall S (hp hp' : heap S) p h s fc,
  p <> 0 -> f_new hp p (Some s) = (hp', h) -> f_drop hp' h = UB /\ f_get_constants fc hp' h = UB.
Proof. exact L_C49_new_drop_ub. Qed.
Print Assumptions C49_new_drop_ub.

(** Two stores behind three boxes: dropping the first leaves the second usable, and the
    constants that are handed out are those it was opened with. *)
Theorem C49_drop_nonvacuous :
  exists (hp hp' : heap ust),
  hp 8 = Some (HBox 4096) /\ hp 16 = Some (HBox 8192) /\ hp 24 = Some (HBox 4096) /\
  f_drop hp 8 = Val hp' /\
  read_handle hp 24 (fun st => f_count ex_U None 0 st) = Val 3 /\
  read_handle hp' 24 (fun st => f_count ex_U None 0 st) = UB /\
  f_drop hp' 8 = UB /\ f_drop hp' 24 = UB /\
  read_handle hp' 16 (fun st => f_count ex_U None 0 st) = Val 4 /\
  (exists c, f_get_constants ex_fc hp' 16 = Val c /\ from_c c = ex_fc) /\
  f_get_constants ex_fc hp' 8 = UB.
Proof. exact L_C49_drop_nonvacuous. Qed.
Print Assumptions C49_drop_nonvacuous.

(** A failed New gives the null handle and leaves every object where it was; every function
    called with it panics. *)
Theorem C49_failed_new :
  forall S (hp hp' : heap S) p h fc,
  f_new hp p None = (hp', h) ->
  h = 0 /\ (forall x, hp' x = hp x) /\ f_drop hp' h = Panic /\ f_get_constants fc hp' h = Panic /\
  (forall A (f : S -> out (S * A)), on_handle hp' h f = Panic) /\
  (forall A (f : S -> out A), read_handle hp' h f = Panic).
Proof. exact L_C49_failed_new. Qed.
Print Assumptions C49_failed_new.

(** The box itself changes nothing: a boxed store is the store, so every default method, every
    decorator and every exported function gives the same outcome on both. *)
Theorem C49_box_forwards :
  forall S (I : LinksI S),
  boxed I = I.
Proof. exact L_C49_box_forwards. Qed.
Print Assumptions C49_box_forwards.
