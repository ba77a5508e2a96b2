(** Claims about the C interface and the link value. *)
From Coq Require Import NArith Arith List Bool Lia Permutation Sorted.
From Verif Require Import Base Trees Lists TreeImpl Spec Iface Doublets DoubletsOK Obs Hist Claims Decorators
  UnitModel UnitInv UnitOps UnitLinks UnitHist UnitClaims DefaultClaims GoodStore DecoratorClaims LinkModel Ffi.
Import ListNotations.
Open Scope N_scope.

(** The caller passes a query of length [len] at pointer [p]: null for the empty query, or
    memory that starts with it. *)
Definition points_to (p : option (list N)) (len : nat) (q : list N) : Prop :=
  (p = None /\ q = []) \/ (exists rest, p = Some (q ++ rest) /\ len = length q).

Lemma qraw p len q : points_to p len q -> query_from_raw p len = Val q.
Proof.
  intros [[-> ->]|(rest & -> & ->)]; [reflexivity|]. unfold query_from_raw.
  destruct (Nat.leb_spec (length q) (length (q ++ rest))) as [|K]; [|rewrite app_length in K; lia].
  now rewrite firstn_app, firstn_all, Nat.sub_diag, firstn_O, app_nil_r.
Qed.

(** A read callback as a handler: it continues on the Continue constant only. *)
Definition ecb {H} (fc : lconst) (cb : ecallback H) : uread H N :=
  fun x l => let '(x', v) := cb x l in (x', if v =? lc_continue fc then None else Some v).

Lemma urun_ecb {H} fc (cb : ecallback H) L : forall x,
  urun (fun x l => let '(x', v) := cb x l in (x', if v =? lc_continue fc then @None unit else Some tt)) L x =
  (fst (urun (ecb fc cb) L x), match snd (urun (ecb fc cb) L x) with None => None | Some _ => Some tt end).
Proof.
  induction L as [|l L IH]; intros x; cbn [urun]; [reflexivity|]. unfold ecb at 1 3.
  destruct (cb x l) as [x' v]. destruct (v =? lc_continue fc); [apply IH|reflexivity].
Qed.

(** * C31 Callbacks *)
(** update, delete, each: Continue leads to Continue and Break to Break (update and each
    treat every other value as Break, delete as Continue); a failing update or delete returns
    the error constant, changes nothing and makes no call.  Missing: create, which is inverted
    (next theorem). *)
Lemma L_C31_callbacks_partial cf fc S (I : LinksI S) G st :
  good_store cf I G -> G st -> lc_continue fc <> lc_break fc ->
  (forall p lr p' ls q ch i s t, points_to p lr q -> points_to p' ls ch ->
     qget q 0 = Val i -> qget ch 1 = Val s -> qget ch 2 = Val t -> linked I st i -> separable I st i ->
     exists st' b, G st' /\ is_link I st' i s t /\ frame I st st' i /\
       forall H (cb : ccallback H) x, f_update fc I cb p lr p' ls st x =
         Val (st', fst (cb x b (mkLink i s t)),
              if snd (cb x b (mkLink i s t)) =? lc_continue fc then lc_continue fc else lc_break fc)) /\
  (forall p len q i s t, points_to p len q -> qget q 0 = Val i -> is_link I st i s t -> separable I st i ->
     exists st', G st' /\ no_link I st' i /\ frame I st st' i /\
       forall H (cb : ccallback H) x, f_delete fc I cb p len st x =
         Val (st', fst (cb x (mkLink i s t) nothing),
              if snd (cb x (mkLink i s t) nothing) =? lc_break fc then lc_break fc else lc_continue fc)) /\
  (forall p len q, points_to p len q -> (length q <= 3)%nat ->
     exists L, f_count I p len st = Val (N.of_nat (length L)) /\
       forall H (cb : ecallback H) x, exists x' o, visit_result (ecb fc cb) x L (x', o) /\
         f_each fc I cb p len st x = Val (x', match o with None => lc_continue fc | Some _ => lc_break fc end)) /\
  (forall p lr p' ls q ch i s t, points_to p lr q -> points_to p' ls ch ->
     qget q 0 = Val i -> qget ch 1 = Val s -> qget ch 2 = Val t -> no_link I st i ->
     forall H (cb : ccallback H) x, f_update fc I cb p lr p' ls st x = Val (st, x, lc_error fc)) /\
  (forall p len q i, points_to p len q -> qget q 0 = Val i -> no_link I st i ->
     forall H (cb : ccallback H) x, f_delete fc I cb p len st x = Val (st, x, lc_error fc)).
Proof.
  intros GS K NE. repeat match goal with |- _ /\ _ => split end.
  - intros p lr p' ls q ch i s t P1 P2 Q1 Q2 Q3 LI SEP.
    destruct (gs_update cf I G GS st q ch i s t K LI SEP Q1 Q2 Q3) as (st' & b & K' & C & L' & F).
    exists st', b. split; auto. split; auto. split; auto. intros H cb x. unfold f_update.
    rewrite (qraw _ _ _ P1), (qraw _ _ _ P2). cbn [obind]. unfold d_update_by_with.
    rewrite (wadapt_once _ _ _ _ _ _ _ _ C). cbn [obind]. destruct (cb x b (mkLink i s t)) as [x' v]. cbn [fst snd rmap].
    destruct (v =? lc_continue fc); reflexivity.
  - intros p len q i s t P Q LI SEP.
    destruct (gs_delete cf I G GS st q i s t K LI SEP Q) as (st' & K' & C & L' & F).
    exists st'. split; auto. split; auto. split; auto. intros H cb x. unfold f_delete.
    rewrite (qraw _ _ _ P). cbn [obind]. unfold d_delete_by_with.
    rewrite (wadapt_once _ _ _ _ _ _ _ _ C). cbn [obind]. destruct (cb x (mkLink i s t) nothing) as [x' v]. cbn [fst snd rmap].
    destruct (v =? lc_break fc); reflexivity.
  - intros p len q P LQ. destruct GS as (CF & DB & sp & R & OK & SPU & SPD & SPC & SPQ & GR).
    apply GR in K as (a & HR).
    destruct (g_visits cf sp I R OK SPQ st a q HR LQ (fun _ => DB)) as (L & V & VO).
    exists L. unfold f_count, f_each. rewrite (qraw _ _ _ P). cbn [obind]. split; [apply V|].
    intros H cb x. destruct (urun (ecb fc cb) L x) as [x' o] eqn:E. exists x', o. split.
    + rewrite <- E. apply urun_visit.
    + rewrite (d_each_by_ok _ _ _ _ _ _ _ _ V), urun_ecb, E. cbn [obind fst snd]. destruct o; reflexivity.
  - intros p lr p' ls q ch i s t P1 P2 Q1 Q2 Q3 N H cb x.
    pose proof (gs_update_none cf I G GS st q ch i s t K N Q1 Q2 Q3) as C. unfold f_update.
    rewrite (qraw _ _ _ P1), (qraw _ _ _ P2). cbn [obind]. unfold d_update_by_with.
    rewrite (wadapt_fail _ _ _ _ _ _ _ C). reflexivity.
  - intros p len q i P Q N H cb x.
    pose proof (gs_delete_none cf I G GS st q i K N Q) as C. unfold f_delete.
    rewrite (qraw _ _ _ P). cbn [obind]. unfold d_delete_by_with.
    rewrite (wadapt_fail _ _ _ _ _ _ _ C). reflexivity.
Qed.

(** Constants for the examples: continue 900, break 901, error 902. *)
Definition ex_fc : lconst := mkLC 0 1 2 0 900 901 903 200 904 902 (1, 100) (Some (300, 400)).
Lemma L_C31_nonvacuous : exists st,
  good_store ex_cf ex_U (fun st => exists d, u_hist ex_cf ref_tree_ops ref_list_ops st d) /\
  (exists d, u_hist ex_cf ref_tree_ops ref_list_ops st d) /\ lc_continue ex_fc <> lc_break ex_fc /\
  linked ex_U st 3 /\ separable ex_U st 3 /\
  points_to (Some [3; 7]) 1 [3] /\ points_to (Some [3; 2; 2]) 3 [3; 2; 2] /\
  out_res (f_update ex_fc ex_U (fun (x : N) _ _ => (x + 1, 900)) (Some [3; 7]) 1 (Some [3; 2; 2]) 3 st 5) = Some (6, 900) /\
  out_res (f_update ex_fc ex_U (fun (x : N) _ _ => (x + 1, 901)) (Some [3; 7]) 1 (Some [3; 2; 2]) 3 st 5) = Some (6, 901) /\
  out_res (f_delete ex_fc ex_U (fun (x : N) _ _ => (x + 1, 901)) (Some [3; 7]) 1 st 5) = Some (6, 901) /\
  out_res (f_delete ex_fc ex_U (fun (x : N) _ _ => (x + 1, 901)) (Some [9]) 1 st 5) = Some (5, 902) /\
  f_each ex_fc ex_U (fun x l => (x ++ [l_index l], if l_index l =? 2 then 901 else 900)) None 0 st [] = Val ([1; 2], 901) /\
  f_each ex_fc ex_U (fun x l => (x ++ [l_index l], 900)) None 0 st [] = Val ([1; 2; 3], 900).
Proof.
  destruct ex3_reach as (d & HH & DP & L1 & L2 & L3). exists (ex_st ex3). split; [exact ex_good|]. split; [eauto|].
  split; [discriminate|]. split; [exists 2, 1; exact L3|]. split; [apply distinct_separable; exact DP|].
  split; [right; exists [7]; auto|]. split; [right; exists []; auto|].
  repeat (split; [vmr|]). vmr.
Qed.

(** In every state with room, a create whose callback returns Continue reports Break, and one
    whose callback returns Break reports Continue. *)
Lemma L_C31_create_inverted cf fc S (I : LinksI S) G st p len q st1 x1 f :
  good_store cf I G -> G st -> points_to p len q ->
  li_create I unit (fun x _ _ => (x, Continue)) q st tt = Val (st1, x1, Ok f) ->
  exists i, adds cf I st st1 i 0 0 /\
    forall H (cb : ccallback H) x, f_create fc I cb p len st x =
      Val (st1, fst (cb x nothing (mkLink i 0 0)),
           if snd (cb x nothing (mkLink i 0 0)) =? lc_continue fc then lc_break fc else lc_continue fc).
Proof.
  intros GS K P E. destruct (gs_create cf I G GS st q K) as [(st' & e & _ & _ & F)|(st' & i & K' & A & C)].
  - rewrite F in E. discriminate.
  - rewrite C in E. injection E as -> <- <-. exists i. split; auto. intros H cb x. unfold f_create.
    rewrite (qraw _ _ _ P). cbn [obind]. unfold d_create_by_with.
    rewrite (wadapt_once _ _ _ _ _ _ _ _ C). cbn [obind]. destruct (cb x nothing (mkLink i 0 0)) as [x' v]. cbn [fst snd rmap].
    destruct (v =? lc_continue fc); reflexivity.
Qed.
Lemma L_C31_create_refuted : exists st d,
  u_hist ex_cf ref_tree_ops ref_list_ops st d /\
  out_res (f_create ex_fc ex_U (fun (x : N) _ _ => (x + 1, lc_continue ex_fc)) None 0 st 5) = Some (6, lc_break ex_fc) /\
  out_res (f_create ex_fc ex_U (fun (x : N) _ _ => (x + 1, lc_break ex_fc)) None 0 st 5) = Some (6, lc_continue ex_fc).
Proof.
  destruct ex3_reach as (d & HH & _). exists (ex_st ex3), d. split; [exact HH|]. split; vmr.
Qed.

(** smart_create and smart_update return the address of the link, or the error constant and
    then change no link. *)
Lemma L_C31_smart cf fc S (I : LinksI S) G st : good_store cf I G -> G st ->
  (exists st', G st' /\
     ((same_links I st st' /\ f_smart_create fc I st = Val (st', lc_error fc)) \/
      exists i, adds cf I st st' i 0 0 /\ f_smart_create fc I st = Val (st', i))) /\
  (forall i s t, linked I st i -> separable I st i ->
     exists st', G st' /\ is_link I st' i s t /\ frame I st st' i /\ f_smart_update fc I i s t st = Val (st', i)) /\
  (forall i s t, no_link I st i -> f_smart_update fc I i s t st = Val (st, lc_error fc)).
Proof.
  intros GS K. split; [|split].
  - destruct (gs_create cf I G GS st [] K) as [(st' & e & K' & SL & F)|(st' & i & K' & A & C)]; exists st'; (split; [exact K'|]).
    + left. split; auto. unfold f_smart_create, d_create. now rewrite (d_create_fail _ _ _ _ _ F).
    + right. exists i. split; auto. unfold f_smart_create, d_create. now rewrite (d_create_once _ _ _ _ _ _ _ C).
  - intros i s t LI SEP. destruct (gs_update cf I G GS st [i] [i; s; t] i s t K LI SEP eq_refl eq_refl eq_refl) as (st' & b & K' & C & L' & F).
    exists st'. split; auto. split; auto. split; auto. unfold f_smart_update, d_update, d_update_by, d_update_by_with.
    now rewrite (wadapt_once _ _ _ _ _ _ _ _ C).
  - intros i s t N. pose proof (gs_update_none cf I G GS st [i] [i; s; t] i s t K N eq_refl eq_refl eq_refl) as C.
    unfold f_smart_update, d_update, d_update_by, d_update_by_with. now rewrite (wadapt_fail _ _ _ _ _ _ _ C).
Qed.
Lemma L_C31_smart_nonvacuous : exists st d, u_hist ex_cf ref_tree_ops ref_list_ops st d /\ distinct_pairs ex_U st /\
  linked ex_U st 3 /\ no_link ex_U st 9 /\
  match f_smart_create ex_fc ex_U st with Val (_, v) => v | _ => 0 end = 4 /\
  match f_smart_update ex_fc ex_U 3 1 3 st with Val (_, v) => v | _ => 0 end = 3 /\
  match f_smart_update ex_fc ex_U 9 1 1 st with Val (_, v) => v | _ => 0 end = lc_error ex_fc.
Proof.
  destruct ex3_reach as (d & HH & DP & L1 & L2 & L3). exists (ex_st ex3), d. split; [exact HH|]. split; [exact DP|].
  split; [exists 2, 1; exact L3|]. split; [vmr|]. split; [vmr|]. split; vmr.
Qed.

(** * C32 Constants *)
Lemma L_C32_round_trip c : from_c (to_c c) = c.
Proof. destruct c as [a b d e f g h i j k [l m] [[n o]|]]; reflexivity. Qed.
(** The C struct comes back too, except for a range without the marker. *)
Lemma L_C32_round_trip_c c : cc_marker c = true \/ cc_external c = (0, 0) -> to_c (from_c c) = c.
Proof. destruct c as [a b d e f g h i j k [l m] [n o] []]; cbn; intros [K|K]; try discriminate; auto; injection K as -> ->; auto. Qed.
Lemma L_C32_nonvacuous : lc_external (from_c (to_c ex_fc)) = Some (300, 400) /\
  cc_marker (to_c ex_fc) = true /\ cc_external (to_c ex_fc) = (300, 400) /\
  lc_external (from_c (to_c (mkLC 0 1 2 0 900 901 903 200 904 902 (1, 100) None))) = None.
Proof. repeat split. Qed.

(** * C46 Links *)
(** Round trip, predicates, and the panic on short slices.  Missing: longer slices (next
    theorem). *)
Lemma L_C46_links_partial :
  (forall l, link_from_slice (link_as_slice l) = Val l) /\
  (forall v l, length v = 3%nat -> link_from_slice v = Val l -> link_as_slice l = v) /\
  (forall v, length v = 3%nat -> exists l, link_from_slice v = Val l) /\
  (forall v, (length v < 3)%nat -> link_from_slice v = Panic) /\
  (forall l, link_is_null l = true <-> l = mkLink 0 0 0) /\
  (forall i s t, link_is_full (mkLink i s t) = true <-> i = s /\ i = t) /\
  (forall i s t, link_is_partial (mkLink i s t) = true <-> i = s \/ i = t) /\
  (forall l, link_is_full l = true -> link_is_partial l = true) /\
  (forall v, link_is_full (link_point v) = true).
Proof.
  assert (T : forall v : list N, length v = 3%nat -> exists a b c, v = [a; b; c]).
  { intros [|a [|b [|c [|]]]]; try discriminate. eauto. }
  repeat match goal with |- _ /\ _ => split end.
  - intros [i s t]. reflexivity.
  - intros v l E K. destruct (T v E) as (a & b & c & ->). cbn in K. injection K as <-. reflexivity.
  - intros v E. destruct (T v E) as (a & b & c & ->). eexists. reflexivity.
  - intros v E. unfold link_from_slice. destruct (Nat.leb_spec 3 (length v)); [lia|reflexivity].
  - intros [i s t]. unfold link_is_null, link_eqb. cbn. rewrite !andb_true_iff, !N.eqb_eq. intuition congruence.
  - intros i s t. unfold link_is_full. cbn. now rewrite andb_true_iff, !N.eqb_eq.
  - intros i s t. unfold link_is_partial. cbn. now rewrite orb_true_iff, !N.eqb_eq.
  - intros [i s t]. unfold link_is_full, link_is_partial. cbn. destruct (i =? s); [reflexivity|discriminate].
  - intros v. unfold link_is_full. cbn. now rewrite N.eqb_refl.
Qed.
(** from_slice is safe code, but every slice of more than three elements is undefined behaviour. *)
Lemma L_C46_long_slice_ub v : (3 < length v)%nat -> link_from_slice v = UB.
Proof.
  intros K. unfold link_from_slice. destruct (Nat.leb_spec 3 (length v)); [|lia].
  destruct v as [|a [|b [|c [|d v]]]]; cbn in K; try lia. reflexivity.
Qed.
Lemma L_C46_from_slice_refuted : exists v, (3 <= length v)%nat /\ link_from_slice v = UB.
Proof. exists [1; 2; 3; 4]. split; [cbn; lia|reflexivity]. Qed.

(** * C49 Handles *)
(** The handle returned by a successful New is not usable: every exported function works on
    a box at that address, but New returns the address of the store itself. *)
Lemma L_C49_new_handle_ub S (hp hp' : heap S) p h s :
  p <> 0 -> f_new hp p (Some s) = (hp', h) ->
  h <> 0 /\
  (forall A (f : S -> out (S * A)), on_handle hp' h f = UB) /\
  (forall A (f : S -> out A), read_handle hp' h f = UB).
Proof.
  intros P E. injection E as <- <-. split; auto.
  assert (D : f_deref (upd hp p (Some (HStore s))) p = UB).
  { unfold f_deref. destruct (N.eqb_spec p 0); [contradiction|]. now rewrite upd_same. }
  split; intros A f; unfold on_handle, read_handle; now rewrite D.
Qed.
Lemma L_C49_new_handle_refuted : exists (hp hp' : heap ust) h,
  (forall i, hp i = None) /\ f_new hp 4096 (Some (ex_st ex3)) = (hp', h) /\ h <> 0 /\
  read_handle hp' h (fun st => f_count ex_U None 0 st) = UB /\
  f_count ex_U None 0 (ex_st ex3) = Val 3.
Proof.
  exists (fun _ => None), (upd (fun _ => None) 4096 (Some (HStore (ex_st ex3)))), 4096.
  split; [auto|]. split; [auto|]. split; [discriminate|]. split; [reflexivity|vmr].
Qed.
(** With a box at the handle the same call reaches the store, and null is a panic. *)
Lemma L_C49_boxed_handle_partial S (hp : heap S) h p s A (f : S -> out A) :
  h <> 0 -> hp h = Some (HBox p) -> hp p = Some (HStore s) ->
  read_handle hp h f = f s /\ read_handle hp 0 f = Panic.
Proof.
  intros H0 E1 E2. unfold read_handle, f_deref. destruct (N.eqb_spec h 0); [contradiction|].
  rewrite E1, E2. auto.
Qed.
(** With boxes at the handles, a modifying call replaces the store behind its handle and leaves
    the stores behind other boxes alone.  Missing: handles as New returns them. *)
Lemma L_C49_boxed_calls_partial S (hp : heap S) h p s A (f : S -> out (S * A)) s' a :
  h <> 0 -> hp h = Some (HBox p) -> hp p = Some (HStore s) -> f s = Val (s', a) ->
  exists hp', on_handle hp h f = Val (hp', a) /\
    (forall B (g : S -> out B), read_handle hp' h g = g s') /\
    (forall h2 p2 s2 B (g : S -> out B), h2 <> 0 -> hp h2 = Some (HBox p2) -> hp p2 = Some (HStore s2) -> p2 <> p ->
       read_handle hp' h2 g = g s2) /\
    (forall h2 B (g : S -> out B), h2 <> 0 -> hp h2 = Some (HBox p) -> read_handle hp' h2 g = g s').
Proof.
  intros H0 E1 E2 F. exists (upd hp p (Some (HStore s'))).
  assert (NB : forall x y, hp x = Some (HBox y) -> x <> p) by (intros x y X ->; congruence).
  split; [|split; [|split]].
  - unfold on_handle, f_deref. destruct (N.eqb_spec h 0); [contradiction|]. rewrite E1, E2. cbn [obind]. now rewrite F.
  - intros B g. unfold read_handle, f_deref. destruct (N.eqb_spec h 0); [contradiction|].
    rewrite upd_other by eauto. now rewrite E1, upd_same.
  - intros h2 p2 s2 B g Z X Y NE. unfold read_handle, f_deref. destruct (N.eqb_spec h2 0); [contradiction|].
    rewrite upd_other by eauto. rewrite X, upd_other by auto. now rewrite Y.
  - intros h2 B g Z X. unfold read_handle, f_deref. destruct (N.eqb_spec h2 0); [contradiction|].
    rewrite upd_other by eauto. now rewrite X, upd_same.
Qed.
Lemma L_C49_boxed_calls_nonvacuous : exists (hp : heap ust) hp' v,
  hp 8 = Some (HBox 4096) /\ hp 16 = Some (HBox 8192) /\
  hp 4096 = Some (HStore (ex_st ex3)) /\ hp 8192 = Some (HStore (ex_st ex3)) /\
  on_handle hp 8 (f_smart_create ex_fc ex_U) = Val (hp', v) /\ v = 4 /\
  read_handle hp' 8 (fun st => f_count ex_U None 0 st) = Val 4 /\
  read_handle hp' 16 (fun st => f_count ex_U None 0 st) = Val 3.
Proof.
  set (hp := upd (upd (upd (upd (fun _ => None) 8 (Some (HBox 4096))) 16 (Some (HBox 8192))) 4096 (Some (HStore (ex_st ex3)))) 8192 (Some (HStore (ex_st ex3))) : heap ust).
  exists hp, (upd hp 4096 (Some (HStore (ex_st (ex3 ++ [Cr]))))), 4.
  split; [reflexivity|]. split; [reflexivity|]. split; [reflexivity|]. split; [reflexivity|].
  split; [vmr|]. split; [reflexivity|]. split; vmr.
Qed.
(** With a box at the handle, Drop closes the store behind it: every call through a handle of
    that store, a second Drop included, is undefined behaviour, and the stores behind other
    boxes are as they were.  Null is a panic.  Missing: handles as New returns them. *)
Lemma L_C49_drop_partial S (hp : heap S) h p s :
  h <> 0 -> hp h = Some (HBox p) -> hp p = Some (HStore s) ->
  f_drop hp 0 = Panic /\
  exists hp', f_drop hp h = Val hp' /\
    (forall h2, h2 <> 0 -> hp h2 = Some (HBox p) ->
       f_drop hp' h2 = UB /\
       (forall A (f : S -> out (S * A)), on_handle hp' h2 f = UB) /\
       (forall A (f : S -> out A), read_handle hp' h2 f = UB)) /\
    (forall h2 p2 s2, h2 <> 0 -> hp h2 = Some (HBox p2) -> hp p2 = Some (HStore s2) -> p2 <> p ->
       hp' h2 = Some (HBox p2) /\ hp' p2 = Some (HStore s2)).
Proof.
  intros H0 E1 E2. split; [reflexivity|]. exists (upd hp p None).
  assert (NB : forall x y, hp x = Some (HBox y) -> x <> p) by (intros x y X ->; congruence).
  split; [|split].
  - unfold f_drop, f_deref. destruct (N.eqb_spec h 0); [contradiction|]. now rewrite E1, E2.
  - intros h2 Z X.
    assert (D : f_deref (upd hp p None) h2 = UB).
    { unfold f_deref. destruct (N.eqb_spec h2 0); [contradiction|].
      rewrite upd_other by eauto. now rewrite X, upd_same. }
    unfold f_drop, on_handle, read_handle. rewrite D. auto.
  - intros h2 p2 s2 Z X Y NE. rewrite !upd_other by eauto. auto.
Qed.
(** The handles New returns cannot be dropped nor asked for their constants either. *)
Lemma L_C49_new_drop_ub S (hp hp' : heap S) p h s fc :
  p <> 0 -> f_new hp p (Some s) = (hp', h) -> f_drop hp' h = UB /\ f_get_constants fc hp' h = UB.
Proof.
  intros P E. injection E as <- <-.
  assert (D : f_deref (upd hp p (Some (HStore s))) p = UB).
  { unfold f_deref. destruct (N.eqb_spec p 0); [contradiction|]. now rewrite upd_same. }
  unfold f_drop, f_get_constants, read_handle. rewrite D. auto.
Qed.
(** Two stores behind three boxes: dropping the first leaves the second usable, and the
    constants that are handed out are those it was opened with. *)
Lemma L_C49_drop_nonvacuous : exists (hp hp' : heap ust),
  hp 8 = Some (HBox 4096) /\ hp 16 = Some (HBox 8192) /\ hp 24 = Some (HBox 4096) /\
  f_drop hp 8 = Val hp' /\
  read_handle hp 24 (fun st => f_count ex_U None 0 st) = Val 3 /\
  read_handle hp' 24 (fun st => f_count ex_U None 0 st) = UB /\
  f_drop hp' 8 = UB /\ f_drop hp' 24 = UB /\
  read_handle hp' 16 (fun st => f_count ex_U None 0 st) = Val 4 /\
  (exists c, f_get_constants ex_fc hp' 16 = Val c /\ from_c c = ex_fc) /\
  f_get_constants ex_fc hp' 8 = UB.
Proof.
  set (hp := upd (upd (upd (upd (upd (fun _ => None) 8 (Some (HBox 4096))) 16 (Some (HBox 8192))) 24 (Some (HBox 4096)))
    4096 (Some (HStore (ex_st ex3)))) 8192 (Some (HStore (ex_st (ex3 ++ [Cr])))) : heap ust).
  exists hp, (upd hp 4096 None).
  split; [reflexivity|]. split; [reflexivity|]. split; [reflexivity|]. split; [reflexivity|].
  split; [vmr|]. split; [reflexivity|]. split; [reflexivity|]. split; [reflexivity|]. split; [vmr|].
  split; [eexists; split; reflexivity|reflexivity].
Qed.
(** A failed New gives the null handle and leaves every object where it was; every function
    called with it panics. *)
Lemma L_C49_failed_new S (hp hp' : heap S) p h fc : f_new hp p None = (hp', h) ->
  h = 0 /\ (forall x, hp' x = hp x) /\ f_drop hp' h = Panic /\ f_get_constants fc hp' h = Panic /\
  (forall A (f : S -> out (S * A)), on_handle hp' h f = Panic) /\
  (forall A (f : S -> out A), read_handle hp' h f = Panic).
Proof. intros [= <- <-]. repeat split. Qed.
(** The box itself changes nothing: a boxed store is the store, so every default method, every
    decorator and every exported function gives the same outcome on both. *)
Lemma L_C49_box_forwards S (I : LinksI S) : boxed I = I.
Proof. now destruct I. Qed.
