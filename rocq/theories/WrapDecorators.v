(** The decorators in builds without overflow checks (C102; the statements are repeated in
    PropWrapDecorators.v). *)
From Coq Require Import NArith PeanoNat List Bool Lia Permutation.
From Verif Require Import Base Trees Lists Spec Iface UnitModel UnitInv UnitOps UnitLinks LinkModel SplitModel Forest
  SplitInv SplitReads SplitOps SplitWrites SplitLinks Doublets DoubletsOK Obs Hist Claims TreeImpl UnitHist SplitHist UnitClaims SplitClaims
  DefaultClaims SplitDefaults Overflow Decorators DecoratorClaims Ffi WrapModel WrapClaims.
Import ListNotations.
Open Scope N_scope.

Section Model.
  Context {S : Type}.
  Variable cf : cfg.
  Variable I : LinksI S.

  (** usages_validator.rs:60-72 and 80-92 over the usages of traits.rs:457-478 with wrapping
      arithmetic *)
  Definition wif_unused {H A} (q : list N) (st : S) (x : H) (k : out (S * H * result A))
    : out (S * H * result A) :=
    let* i := qget q (c_index_part cf) in
    let* r := wd_usages cf I st i in
    match r with
    | Err e => Val (st, x, Err e)
    | Ok [] => k
    | Ok us =>
        let* rs := get_all I st us in
        Val (st, x, match rs with Err e => Err e | Ok ls => Err (HasUsages ls) end)
    end.
  (** usages_validator.rs:25-94; the other decorators of Decorators.v neither add nor subtract *)
  Definition wusages_validator : LinksI S :=
    mkLinksI S (li_count I) (li_create I) (li_each I)
      (fun H h q ch st x => wif_unused q st x (li_update I H h q ch st x))
      (fun H h q st x => wif_unused q st x (li_delete I H h q st x))
      (li_get I).
End Model.

Section Calls.
  Variables (cf : cfg) (S : Type) (I J : LinksI S).
  Hypothesis IJ : calls_below I J.
  Lemma k_then H A B (m m' : out (S * H * result A)) (k k' : S -> H -> out (S * H * result B)) :
    below m m' -> (forall st x, below (k st x) (k' st x)) -> below (then_ok m k) (then_ok m' k').
  Proof. intros M K. unfold then_ok. apply below_bind; [exact M|]. intros [[st x] [a|e]]; [apply K|apply below_refl]. Qed.
  Lemma k_flow H B (m m' : out (S * H * result (option B))) : below m m' -> below (to_flow m) (to_flow m').
  Proof. intros M. unfold to_flow. apply below_bind; [exact M|]. intros [[st x] r]. apply below_refl. Qed.
  Lemma k_update H B (h : uwrite H B) i s t st x : below (d_update_with I h i s t st x) (d_update_with J h i s t st x).
  Proof. apply (c_update_with S I J IJ). Qed.
  Lemma k_delete H B (h : uwrite H B) i st x : below (d_delete_with I h i st x) (d_delete_with J h i st x).
  Proof. apply (c_delete_with S I J IJ). Qed.
  Lemma k_get_all st l : below (get_all I st l) (get_all J st l).
  Proof.
    induction l as [|i l IH]; cbn [get_all]; [apply below_refl|]. apply below_bind; [apply (c_try_get S I J IJ)|].
    intros [k|e]; [|apply below_refl]. apply below_bind; [exact IH|]. intros; apply below_refl.
  Qed.
  Lemma k_unused H A q st (x : H) (k k' : out (S * H * result A)) : below k k' -> below (if_unused cf I q st x k) (wif_unused cf J q st x k').
  Proof.
    intros K. unfold if_unused, wif_unused. apply below_bind; [apply below_refl|]. intros i.
    apply below_bind; [apply (c_usages cf S I J IJ)|]. intros [[|u us]|e]; [exact K| |apply below_refl].
    apply below_bind; [apply k_get_all|]. intros; apply below_refl.
  Qed.
End Calls.

(** Every decorator keeps what its store has: a call that returns in a checked build returns the
    same in the other. *)
Lemma L_C102_calls cf S (I J : LinksI S) : calls_below I J ->
  calls_below (unique_validator cf I) (unique_validator cf J) /\
  calls_below (unique_resolver cf I) (unique_resolver cf J) /\
  calls_below (usages_validator cf I) (wusages_validator cf J) /\
  calls_below (non_null_deletion_resolver cf I) (non_null_deletion_resolver cf J) /\
  calls_below (cascade_usages_resolver cf I) (cascade_usages_resolver cf J) /\
  calls_below (cascade_unique_resolver cf I) (cascade_unique_resolver cf J).
Proof.
  intros B. pose proof B as (B1 & B2 & B3 & B4 & B5 & B6).
  assert (U : forall H (h : whandler H) q ch st x, below (li_update I H h q ch st x) (li_update J H h q ch st x)) by (intros; intro; apply B4).
  assert (D : forall H (h : whandler H) q st x, below (li_delete I H h q st x) (li_delete J H h q st x)) by (intros; intro; apply B5).
  assert (MK : forall (K K' : LinksI S), li_count K = li_count I -> li_count K' = li_count J -> li_create K = li_create I -> li_create K' = li_create J ->
    li_each K = li_each I -> li_each K' = li_each J -> li_get K = li_get I -> li_get K' = li_get J ->
    (forall H (h : whandler H) q ch st x, below (li_update K H h q ch st x) (li_update K' H h q ch st x)) ->
    (forall H (h : whandler H) q st x, below (li_delete K H h q st x) (li_delete K' H h q st x)) -> calls_below K K').
  { intros K K' E1 E2 E3 E4 E5 E6 E7 E8 KU KD. unfold calls_below. rewrite E1, E2, E3, E4, E5, E6, E7, E8.
    repeat (split; [first [exact B1|exact B2|exact B3|intros; now apply KU|intros; now apply KD]|]). exact B6. }
  split; [|split; [|split; [|split; [|split]]]]; (apply MK; try reflexivity; try exact U; try exact D).
  - intros H h q ch st x. cbn [unique_validator li_update]. do 2 (apply below_bind; [apply below_refl|intros ?]). apply below_bind.
    + unfold d_found. apply below_bind; [apply (c_count S I J B)|]. intros ?. apply below_refl.
    + intros [|]; [apply below_refl|apply U].
  - intros H h q ch st x. cbn [unique_resolver li_update]. do 3 (apply below_bind; [apply below_refl|intros ?]).
    apply below_bind; [apply (c_search cf S I J B)|].
    intros [o|]; [apply k_then; [now apply k_delete|]; intros st1 x1|]; apply k_flow; now apply k_update.
  - intros H h q ch st x. cbn [usages_validator wusages_validator li_update]. apply k_unused; auto.
  - intros H h q st x. cbn [usages_validator wusages_validator li_delete]. apply k_unused; auto.
  - intros H h q st x. cbn [non_null_deletion_resolver li_delete]. apply below_bind; [apply below_refl|]. intros i.
    apply k_then; [apply (c_update_with S I J B)|]. intros st1 x1; apply D.
  - intros H h q st x. cbn [cascade_usages_resolver li_delete]. apply below_bind; [apply below_refl|]. intros i.
    apply k_then; [apply (c_delete_usages cf S I J B)|]. intros st1 x1; apply D.
  - intros H h q ch st x. cbn [cascade_unique_resolver li_update]. do 3 (apply below_bind; [apply below_refl|intros ?]).
    apply below_bind; [apply (c_search cf S I J B)|].
    intros [o|]; [apply k_then; [apply (c_rebase_with cf S I J B)|]; intros st1 x1; apply k_then; [now apply k_delete|]; intros st2 x2|]; apply k_flow; now apply k_update.
Qed.

(** So does the C interface. *)
Lemma L_C102_ffi fc S (I J : LinksI S) : calls_below I J ->
  calls_below (boxed I) (boxed J) /\
  (forall H (cb : ccallback H) p n st x v, f_create fc I cb p n st x = Val v -> f_create fc J cb p n st x = Val v) /\
  (forall st v, f_smart_create fc I st = Val v -> f_smart_create fc J st = Val v) /\
  (forall i s t st v, f_smart_update fc I i s t st = Val v -> f_smart_update fc J i s t st = Val v) /\
  (forall H (cb : ecallback H) p n st x v, f_each fc I cb p n st x = Val v -> f_each fc J cb p n st x = Val v) /\
  (forall p n st v, f_count I p n st = Val v -> f_count J p n st = Val v) /\
  (forall H (cb : ccallback H) p n p' n' st x v, f_update fc I cb p n p' n' st x = Val v -> f_update fc J cb p n p' n' st x = Val v) /\
  (forall H (cb : ccallback H) p n st x v, f_delete fc I cb p n st x = Val v -> f_delete fc J cb p n st x = Val v).
Proof.
  intros B. split; [exact B|].
  split; [intros H cb p n st x v; refine (below_bind _ _ _ _ _ _ (below_refl _ _) _ v); intros q; apply below_bind; [apply (c_create_with S I J B)|]; intros [[? ?] ?]; apply below_refl|].
  split; [intros st v; refine (below_bind _ _ _ _ _ _ (c_d_create S I J B st) _ v); intros [? ?]; apply below_refl|].
  split; [intros i s t st v; refine (below_bind _ _ _ _ _ _ (c_d_update S I J B i s t st) _ v); intros [? ?]; apply below_refl|].
  split; [intros H cb p n st x v; refine (below_bind _ _ _ _ _ _ (below_refl _ _) _ v); intros q; apply below_bind; [apply (c_each_by S I J B)|]; intros [? ?]; apply below_refl|].
  split; [intros p n st v; refine (below_bind _ _ _ _ _ _ (below_refl _ _) _ v); intros q; apply (c_count S I J B)|].
  split; [intros H cb p n p' n' st x v; refine (below_bind _ _ _ _ _ _ (below_refl _ _) _ v); intros q; apply below_bind; [apply below_refl|]; intros ch; apply below_bind; [apply (c_update_with S I J B)|]; intros [[? ?] ?]; apply below_refl|].
  intros H cb p n st x v; refine (below_bind _ _ _ _ _ _ (below_refl _ _) _ v); intros q; apply below_bind; [apply (c_delete_with S I J B)|]; intros [[? ?] ?]; apply below_refl.
Qed.

(** What a store that refuses to touch used links does about link i. *)
Definition refuses_used {S} (W V : LinksI S) (st : S) (i : N) : Prop :=
  (linked W st i -> forall l, user W st i l -> exists L, (forall l, In l L <-> user W st i l) /\
     forall H (h : whandler H) x, li_delete V H h [i] st x = Val (st, x, Err (HasUsages L)) /\
       forall s t, li_update V H h [i] [i; s; t] st x = Val (st, x, Err (HasUsages L))) /\
  (linked W st i -> (forall l, ~ user W st i l) ->
     forall H (h : whandler H) x, li_delete V H h [i] st x = li_delete W H h [i] st x /\
       forall s t, li_update V H h [i] [i; s; t] st x = li_update W H h [i] [i; s; t] st x) /\
  (no_link W st i ->
     forall H (h : whandler H) x, li_delete V H h [i] st x = Val (st, x, Err (NotExists i)) /\
       forall s t, li_update V H h [i] [i; s; t] st x = Val (st, x, Err (NotExists i))).

Lemma refuses S cf (W : LinksI S) st i : cfg_ok cf -> (linked W st i -> reduced_counts cf W st i) ->
  refuses_used W (wusages_validator cf W) st i.
Proof.
  intros CF RC. assert (Q : qget [i] (c_index_part cf) = Val i) by (rewrite (ok_ipart _ CF); reflexivity).
  assert (US : linked W st i -> exists L, wd_usages cf W st i = Val (Ok (map l_index L)) /\ forall l, In l L <-> user W st i l).
  { intros LI. destruct (RC LI) as [_ (L1 & L2 & _ & _ & O1 & O2 & _ & _ & E)]. exists (L1 ++ L2). split; [exact E|].
    intros l. rewrite in_app_iff, O1, O2. unfold user. tauto. }
  split; [|split].
  - intros LI l U. destruct (US LI) as (L & E & IN). exists L. split; [exact IN|].
    assert (IU : forall H A (x : H) (k : out (S * H * result A)), wif_unused cf W [i] st x k = Val (st, x, Err (HasUsages L))).
    { intros H A x k. unfold wif_unused. rewrite Q. cbn [obind]. rewrite E. cbn [obind].
      pose proof (get_all_ok W st L) as GA. destruct L as [|l0 L]; [apply IN in U; destruct U|].
      cbn [map] in GA |- *. rewrite GA; [reflexivity|]. intros l1 Hl. apply IN in Hl. apply Hl. }
    intros H h x. split; [|intros s t]; apply IU.
  - intros LI NU. destruct (US LI) as (L & E & IN).
    assert (IU : forall H A (x : H) (k : out (S * H * result A)), wif_unused cf W [i] st x k = k).
    { intros H A x k. unfold wif_unused. rewrite Q. cbn [obind]. rewrite E. cbn [obind].
      destruct L as [|l0 L]; [reflexivity|]. exfalso. apply (NU l0). apply IN. now left. }
    intros H h x. split; [|intros s t]; apply IU.
  - intros NL.
    assert (IU : forall H A (x : H) (k : out (S * H * result A)), wif_unused cf W [i] st x k = Val (st, x, Err (NotExists i))).
    { intros H A x k. unfold wif_unused. rewrite Q. cbn [obind]. unfold wd_usages, wd_count_usages, d_try_get_link.
      unfold no_link in NL. rewrite NL. reflexivity. }
    intros H h x. split; [|intros s t]; apply IU.
Qed.

(** UsagesValidator refuses exactly the used links, whatever the counts are reduced to. *)
Lemma L_C102_usages_validator_unit cf tops lops st d i : let W := wunit_links cf tops lops in
  unit_env cf tops lops -> wu_hist cf tops lops st d ->
  refuses_used W (wusages_validator cf W) st i.
Proof. intros W ENV HH. apply refuses; [apply ENV|]. intros LI. exact (L_C101_counts_unit cf tops lops st d i ENV HH LI). Qed.
Lemma L_C102_usages_validator_split cf tops lops st d i : let W := wsplit_links cf tops lops in
  unit_env cf tops lops -> ws_hist cf tops lops st d ->
  refuses_used W (wusages_validator cf W) st i.
Proof. intros W ENV HH. apply refuses; [apply ENV|]. intros LI. exact (L_C101_counts_split cf tops lops st d i ENV HH LI). Qed.

(** Nine links 1 -> 1 and addresses up to 15: a checked build panics, the other refuses. *)
Definition users_told (o : out (ust * unit * result flow)) : option (list N) :=
  match o with Val (_, _, Err (HasUsages L)) => Some (map l_index L) | _ => None end.
Definition users_stold (o : out (sst * unit * result flow)) : option (list N) :=
  match o with Val (_, _, Err (HasUsages L)) => Some (map l_index L) | _ => None end.
Notation go := (fun (u : unit) (_ _ : link) => (u, Continue)).
Lemma L_C102_nonvacuous :
  unit_env ov_cf ref_tree_ops ref_list_ops /\ c_iend ov_cf + 1 + c_step ov_cf <= c_tmax ov_cf /\
  (exists st d, wu_hist ov_cf ref_tree_ops ref_list_ops st d /\ linked ov_W st 1 /\ wd_has_usages ov_cf ov_W st 1 = Val false /\
     li_delete (usages_validator ov_cf (unit_links ov_cf ref_tree_ops ref_list_ops)) unit go [1] st tt = Panic /\
     users_told (li_delete (wusages_validator ov_cf ov_W) unit go [1] st tt) = Some [2; 3; 4; 5; 6; 7; 8; 9; 2; 3; 4; 5; 6; 7; 8; 9]) /\
  (exists st d, ws_hist ov_cf ref_tree_ops ref_list_ops st d /\ linked ov_WS st 1 /\ wd_has_usages ov_cf ov_WS st 1 = Val false /\
     li_delete (usages_validator ov_cf (split_links ov_cf ref_tree_ops ref_list_ops)) unit go [1] st tt = Panic /\
     users_stold (li_delete (wusages_validator ov_cf ov_WS) unit go [1] st tt) = Some [2; 3; 4; 5; 6; 7; 8; 9; 2; 3; 4; 5; 6; 7; 8; 9]).
Proof.
  split; [exact ov_env|]. split; [vm_compute; discriminate|]. split.
  - destruct ov_reach as [d HH]. exists ov_st, d. split; [exact (u_to _ _ _ _ _ HH)|]. split; [exists 1, 1; unfold is_link; vm_compute; reflexivity|].
    do 2 (split; [vm_compute; reflexivity|]). vm_compute; reflexivity.
  - destruct ov_sreach as [d HH]. exists ov_sst, d. split; [exact (s_to _ _ _ _ _ HH)|]. split; [exists 1, 1; unfold is_link; vm_compute; reflexivity|].
    do 2 (split; [vm_compute; reflexivity|]). vm_compute; reflexivity.
Qed.
