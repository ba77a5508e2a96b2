(** Proofs of the claims about rebase on a two-memory store that is used freely, as in
    SplitLife.v (C85). *)
From Coq Require Import NArith List Bool Lia Permutation Sorted.
From Verif Require Import Base Trees Lists TreeInv Spec Iface UnitModel UnitInv UnitOps LinkModel SplitModel Forest
  SplitInv SplitReads SplitOps SplitWrites SplitLinks Doublets DoubletsOK Obs Hist Claims UnitHist TreeImpl SplitHist
  Decorators GoodStore DecoratorClaims Stacks SplitLife SplitFree.
From Verif Require CrashDefaults.
Import CrashDefaults(is_at, NoDup_map_of).
From Verif Require Import FreeDefaults.
Import ListNotations.
Open Scope N_scope.

(** The link with its references to [old] changed to [new]. *)
Definition turned (old new v : N) : N := if v =? old then new else v.
Definition rebased (old new : N) (l : link) : link :=
  mkLink (l_index l) (turned old new (l_source l)) (turned old new (l_target l)).
(** The state of a handler told of each of the changes. *)
Definition told_turned {H B} (h : uwrite H B) (old new : N) (W : list link) (x : H) : H :=
  fold_left (fun x l => fst (h x l (rebased old new l))) W x.
(** The store after each of the links [W] is rebased and no other link is changed. *)
Definition rebased_all {S} (I : LinksI S) (old new : N) (st st' : S) (W : list link) : Prop :=
  (forall w, In w W -> li_get I st' (l_index w) = Val (Some (rebased old new w))) /\
  (forall j, ~ In j (map l_index W) -> li_get I st' j = li_get I st j).
(** The misfiled links then: also those of [W] that refer to themselves, and had a source. *)
Definition more_s (old new : N) (Ms : N -> Prop) (W : list link) (j : N) : Prop :=
  Ms j \/ exists w, In w W /\ j = l_index w /\ turned old new (l_source w) = j /\ l_source w <> 0.
Definition more_t (old new : N) (Mt : N -> Prop) (W : list link) (j : N) : Prop :=
  Mt j \/ exists w, In w W /\ j = l_index w /\ turned old new (l_target w) = j /\ l_source w <> 0.

Lemma turned_old old new : turned old new old = new.
Proof. unfold turned. now rewrite N.eqb_refl. Qed.
Lemma turned_other old new v : v <> old -> turned old new v = v.
Proof. intros NE. unfold turned. now rewrite (proj2 (N.eqb_neq _ _) NE). Qed.
Lemma turned_ne old new v : new <> old -> turned old new v <> old.
Proof. intros NE. unfold turned. now destruct (N.eqb_spec v old). Qed.

Section D.
  Variables (cf : cfg) (tops : tree_ops) (lops : list_ops).
  Hypothesis ENV : unit_env cf tops lops.
  Notation S := (split_links cf tops lops).

  Lemma no_target st Ms Mt j s : slife cf tops lops st Ms Mt -> is_link S st j s 0 -> s = 0.
  Proof.
    intros HL LI. destruct (slife_inv cf tops lops ENV _ _ _ HL) as (a & sP & tP & K).
    apply (y_link cf tops lops ENV _ _ _ _ _ _ _ _ _ K) in LI.
    assert (E : tpl a j = Out) by (unfold tpl, place_of; now rewrite LI).
    destruct (xi_placed _ _ _ _ _ _ _ K _ _ _ LI) as [|NO]; auto. exfalso. apply NO.
    destruct (xi_t _ _ _ _ _ _ _ K j) as [[X _]|(_ & (v & X) & _)]; congruence.
  Qed.
  Lemma rebase_step old new st w st1 : l_source w = old \/ l_target w = old -> ~ (l_source w = old /\ l_target w = old) ->
    calls_once (fun H h x => li_update S H h [l_index w] [l_index w; turned old new (l_source w); turned old new (l_target w)] st x)
      st1 w (rebased old new w) ->
    forall H B (h : uwrite H B) W x, d_rebase_list S (fuse_call h) old new (w :: W) st (x, false) =
      d_rebase_list S (fuse_call h) old new W st1 (fst (h x w (rebased old new w)), false).
  Proof.
    intros ONE NB CO H B h W x. cbn [d_rebase_list].
    assert (UP : d_update_with S (fuse_call h) (l_index w) (turned old new (l_source w)) (turned old new (l_target w)) st (x, false) =
      Val (st1, (fst (h x w (rebased old new w)), false), Ok (match snd (h x w (rebased old new w)) with Some _ => Some tt | None => None end))).
    { unfold d_update_with, d_update_by_with. rewrite CO. cbn [wadapt fuse_call].
      destruct (h x w (rebased old new w)) as [x' [b|]]; reflexivity. }
    destruct (N.eqb_spec (l_source w) old) as [E1|E1], (N.eqb_spec (l_target w) old) as [E2|E2]; try tauto.
    - rewrite E1, turned_old, turned_other in UP by auto. rewrite UP. reflexivity.
    - rewrite E2, turned_old, turned_other in UP by auto. cbn [obind]. rewrite UP. reflexivity.
  Qed.
  Lemma rebase_many old new : new <> old -> old <> 0 -> new <> 0 -> forall W st Ms Mt, slife cf tops lops st Ms Mt -> NoDup (map l_index W) ->
    (forall w, In w W -> is_link S st (l_index w) (l_source w) (l_target w) /\ ~ Ms (l_index w) /\ ~ Mt (l_index w) /\
       (l_source w = old \/ l_target w = old) /\ ~ (l_source w = old /\ l_target w = old)) ->
    (forall w j, In w W -> is_link S st j (l_source w) (l_target w) -> j = l_index w) ->
    exists st', slife cf tops lops st' (more_s old new Ms W) (more_t old new Mt W) /\ rebased_all S old new st st' W /\
      forall H B (h : uwrite H B) x, d_rebase_list S (fuse_call h) old new W st (x, false) = Val (st', (told_turned h old new W x, false), Ok tt).
  Proof.
    intros NE O0 N0. induction W as [|w W IH]; intros st Ms Mt HL ND A SE.
    - exists st. split.
      { eapply slife_same; [exact HL| |]; intros j; unfold more_s, more_t; (split; [auto|]); intros [X|(w & [] & _)]; exact X. }
      split; [split; [intros w []|auto]|]. reflexivity.
    - cbn [map] in ND. inversion ND as [|? ? NI ND']; subst. destruct (A w (or_introl eq_refl)) as (LW & W1 & W2 & W3 & W4).
      assert (T0 : turned old new (l_target w) = 0 -> turned old new (l_source w) = 0).
      { intros E. unfold turned in E. destruct (N.eqb_spec (l_target w) old) as [|D]; [contradiction|].
        rewrite E in LW. pose proof (no_target _ _ _ _ _ HL LW). destruct W3; congruence. }
      destruct (L_C83_update_partial cf tops lops st Ms Mt _ _ _ (turned old new (l_source w)) (turned old new (l_target w)) ENV HL LW)
        as (st1 & LI & FR & HL1 & CO); [split; [|auto]|exact T0|].
      { right. intros j s t X Y. assert (E : (s, t) = (l_source w, l_target w)) by (unfold is_link in *; congruence).
        injection E as -> ->. apply (SE w); auto. now left. }
      assert (FL : forall j s t, j <> l_index w -> is_link S st1 j s t <-> is_link S st j s t) by (intros; eapply frame_link; eauto).
      assert (NW : forall v, In v W -> l_index v <> l_index w) by (intros v IV E; apply NI; rewrite <- E; now apply in_map).
      destruct (IH st1 _ _ HL1 ND') as (st' & HL' & (R1 & R2) & E).
      + intros v IV. destruct (A v (or_intror IV)) as (V1 & V2 & V3 & V4). specialize (NW v IV).
        split; [apply FL; auto|]. split; [intros [X|(X & _)]; auto|]. split; [intros [X|(X & _)]; auto|exact V4].
      + intros v j IV LJ. destruct (N.eq_dec j (l_index w)) as [->|NJ].
        * exfalso. assert (Q : (l_source v, l_target v) = (turned old new (l_source w), turned old new (l_target w))) by (unfold is_link in *; congruence).
          injection Q as Q1 Q2. destruct (A v (or_intror IV)) as (_ & _ & _ & [X|X] & _).
          -- apply (turned_ne old new (l_source w) NE). congruence.
          -- apply (turned_ne old new (l_target w) NE). congruence.
        * apply (SE v j); [now right|]. now apply FL.
      + exists st'. split; [|split; [split|]].
        * eapply slife_same; [exact HL'| |]; intros j; unfold more_s, more_t; split.
          -- intros [[X|(X1 & X2 & X3)]|(v & X & Y)]; [auto| |right; exists v; split; [now right|auto]].
             right. exists w. split; [now left|]. split; auto. split; congruence.
          -- intros [X|(v & [<-|X] & X1 & X2 & X3)]; auto; [left; right; split; auto; split; congruence|]. right. exists v. auto.
          -- intros [[X|(X1 & X2 & X3)]|(v & X & Y)]; [auto| |right; exists v; split; [now right|auto]].
             right. exists w. split; [now left|]. split; auto. split; congruence.
          -- intros [X|(v & [<-|X] & X1 & X2 & X3)]; auto; [left; right; split; auto; split; congruence|]. right. exists v. auto.
        * intros v [<-|IV]; [|now apply R1]. rewrite R2; [exact LI|auto].
        * intros j NJ. cbn [map In] in NJ. rewrite R2 by tauto. apply FR. intros ->. tauto.
        * intros H B h x. rewrite (rebase_step old new st w st1 W3 W4); [apply E|]. destruct w; exact CO.
  Qed.
End D.

(** rebase changes the users the store finds, tells the handler of each once, and changes no other
    link.  A user that refers to itself becomes misfiled. *)
Lemma L_C85_rebase_partial cf tops lops st Ms Mt old new :
  let S := split_links cf tops lops in
  unit_env cf tops lops -> slife cf tops lops st Ms Mt -> linked S st old -> new <> old -> new <> 0 -> (forall j, separable S st j) ->
  (forall l, seen_user S st Ms Mt old l -> ~ Ms (l_index l) /\ ~ Mt (l_index l)) -> (forall x, x <> old -> ~ is_link S st x old old) ->
  exists st' W, NoDup W /\ (forall l, In l W <-> seen_user S st Ms Mt old l) /\ rebased_all S old new st st' W /\
    slife cf tops lops st' (more_s old new Ms W) (more_t old new Mt W) /\
    (forall H B (h : uwrite H B) x, d_rebase_with cf S h old new st x = Val (st', told_turned h old new W x, Ok tt)) /\
    d_rebase cf S old new st = Val (st', Ok new).
Proof.
  intros S ENV HL LI NE N0 SE NM NB. destruct (linked_bounds cf tops lops ENV _ _ _ _ HL LI) as [I0 IA].
  destruct (L_C83_by_source cf tops lops st Ms Mt old ENV HL I0 IA) as (L1 & A1 & A2 & A3 & A4).
  destruct (L_C83_by_target cf tops lops st Ms Mt old ENV HL I0 IA) as (L2 & B1 & B2 & B3 & B4).
  fold S in A2, A3, A4, B2, B3, B4. specialize (A4 LI). set (W := but old L1 ++ but old L2).
  assert (IN : forall l, In l W <-> seen_user S st Ms Mt old l).
  { intros l. unfold W, seen_user. rewrite in_app_iff, !in_but, A2, B2. tauto. }
  assert (ND : NoDup W).
  { unfold W. apply NoDup_app_intro; [now apply NoDup_filter|now apply NoDup_filter|].
    intros l X Y. apply in_but in X as [X Z], Y as [Y _]. apply A2 in X as (X1 & X2 & _). apply B2 in Y as (_ & Y2 & _).
    apply (NB _ Z). now rewrite X2, Y2 in X1. }
  assert (LW : forall w, In w W -> is_link S st (l_index w) (l_source w) (l_target w)) by (intros w IW; now apply IN in IW as (X & _)).
  destruct (rebase_many cf tops lops ENV old new NE I0 N0 W st Ms Mt HL) as (st' & HL' & RB & E).
  { now apply (links_nodup cf tops lops st). }
  { intros w IW. split; [now apply LW|]. pose proof (proj1 (IN _) IW) as SU. destruct (NM _ SU). destruct SU as (X & Y & Z).
    split; auto. split; auto. split; [tauto|]. intros [Q1 Q2]. rewrite Q1, Q2 in X. exact (NB _ Y X). }
  { intros w j IW LJ. destruct (SE (l_index w)) as [Z|Z]; [|apply (Z j _ _ (LW _ IW) LJ)].
    apply IN in IW. destruct IW as (X & _ & Y). exfalso. assert (Q : (l_source w, l_target w) = (0, 0)) by (unfold is_link in *; congruence).
    injection Q as Q1 Q2. destruct Y as [[Y _]|[Y _]]; congruence. }
  exists st', W. split; auto. split; auto. split; auto. split; auto.
  assert (E2 : forall H B (h : uwrite H B) x, d_rebase_with cf S h old new st x = Val (st', told_turned h old new W x, Ok tt)).
  { intros H B h x. unfold d_rebase_with, d_try_get_link. destruct LI as (s & t & LI). unfold is_link in LI. rewrite LI. cbn [obind].
    rewrite (proj2 (N.eqb_neq old new)) by congruence.
    rewrite (d_each_iter_ok _ _ _ L1 (conj A3 A4)), (d_each_iter_ok _ _ _ L2 (conj B3 B4)). cbn [obind].
    rewrite filter_app. fold (but old L1). fold (but old L2). fold W. rewrite E. reflexivity. }
  split; auto. unfold d_rebase. rewrite E2. reflexivity.
Qed.

(** The rebase, and the deletion after it. *)
Lemma rebase_then_delete cf tops lops st Ms Mt old new :
  let S := split_links cf tops lops in
  unit_env cf tops lops -> slife cf tops lops st Ms Mt -> linked S st old -> new <> old -> new <> 0 -> (forall j, separable S st j) ->
  (forall l, seen_user S st Ms Mt old l -> ~ Ms (l_index l) /\ ~ Mt (l_index l)) -> (forall x, x <> old -> ~ is_link S st x old old) ->
  ~ Ms old -> ~ Mt old ->
  (forall l, seen_user S st Ms Mt old l -> ~ is_link S st old (l_source (rebased old new l)) (l_target (rebased old new l))) ->
  exists st1 st' W os ot, NoDup W /\ (forall l, In l W <-> seen_user S st Ms Mt old l) /\ no_link S st' old /\
    (forall w, In w W -> li_get S st' (l_index w) = Val (Some (rebased old new w))) /\
    (forall j, j <> old -> ~ In j (map l_index W) -> li_get S st' j = li_get S st j) /\
    slife cf tops lops st' (more_s old new (fun j => Ms j /\ forall t, ~ is_link S st j old t) W)
      (more_t old new (fun j => Mt j /\ forall s, ~ is_link S st j s old) W) /\
    is_link S st old os ot /\
    (forall H B (h : uwrite H B) x, d_rebase_with cf S h old new st x = Val (st1, told_turned h old new W x, Ok tt)) /\
    d_rebase cf S old new st = Val (st1, Ok new) /\
    calls_once (fun H h x => li_delete S H h [old] st1 x) st' (mkLink old os ot) nothing.
Proof.
  intros S ENV HL LI NE N0 SE NM NB MS MT SO. subst S.
  destruct (L_C85_rebase_partial cf tops lops st Ms Mt old new ENV HL LI NE N0 SE NM NB) as (st1 & W & ND & IN & (R1 & R2) & HL1 & RW & RB).
  assert (NW : ~ In old (map l_index W)) by (intros X; apply in_map_iff in X as (w & X & Y); apply IN in Y as (_ & Y & _); congruence).
  assert (FIX : forall j s t, ~ In j (map l_index W) -> is_link (split_links cf tops lops) st1 j s t <-> is_link (split_links cf tops lops) st j s t) by (intros; unfold is_link; now rewrite R2).
  assert (NOS : forall j t, In j (map l_index W) -> ~ is_link (split_links cf tops lops) st1 j old t).
  { intros j t X Y. apply in_map_iff in X as (w & <- & X). apply R1 in X. unfold is_link in Y. rewrite Y in X. unfold rebased in X.
    injection X as X _. symmetry in X. now apply (turned_ne old new (l_source w) NE). }
  assert (NOT : forall j s, In j (map l_index W) -> ~ is_link (split_links cf tops lops) st1 j s old).
  { intros j t X Y. apply in_map_iff in X as (w & <- & X). apply R1 in X. unfold is_link in Y. rewrite Y in X. unfold rebased in X.
    injection X as _ X. symmetry in X. now apply (turned_ne old new (l_target w) NE). }
  assert (WM : forall j, In j (map l_index W) -> ~ Ms j /\ ~ Mt j) by (intros j X; apply in_map_iff in X as (w & <- & X); now apply NM, IN).
  destruct LI as (os & ot & LI). pose proof (proj2 (FIX old os ot NW) LI) as LI1.
  destruct (L_C83_delete_partial cf tops lops st1 _ _ old os ot ENV HL1 LI1) as (st2 & NL & FR & HL2 & CO).
  - split; [|split].
    + destruct (SE old) as [Z|Z]; [left; now apply FIX|right]. intros j s t X Y.
      assert (Q : (s, t) = (os, ot)) by (unfold is_link in *; congruence). injection Q as -> ->.
      destruct (in_dec N.eq_dec j (map l_index W)) as [IJ|IJ]; [exfalso|apply (Z j os ot LI); now apply FIX].
      apply in_map_iff in IJ as (w & <- & IW). pose proof (R1 _ IW) as R. apply IN in IW. apply (SO _ IW).
      assert (Q : rebased old new w = mkLink (l_index w) os ot) by (unfold is_link in Y; congruence). rewrite Q. exact LI.
    + intros [X|(w & IW & X & _)]; [auto|]. apply NW. rewrite X. now apply in_map.
    + intros [X|(w & IW & X & _)]; [auto|]. apply NW. rewrite X. now apply in_map.
  - intros j s t LJ NJ K. exfalso. destruct (in_dec N.eq_dec j (map l_index W)) as [IJ|IJ].
    { destruct K as [[-> _]|[-> _]]; [eapply NOS|eapply NOT]; eauto. }
    apply FIX in LJ; auto. apply IJ. apply in_map_iff. exists (mkLink j s t). split; auto. apply IN. split; auto. split; auto.
    cbn [l_index l_source l_target]. destruct K as [[K1 K2]|[K1 K2]]; [left|right]; split; auto; intros X; apply K2; now left.
  - exists st1, st2, W, os, ot. split; auto. split; auto. split; [exact NL|].
    assert (WO : forall j, In j (map l_index W) -> j <> old) by (intros j X ->; auto).
    split; [intros w IW; rewrite FR; [now apply R1|apply WO; now apply in_map]|].
    split; [intros j NJ IJ; rewrite FR by auto; now apply R2|]. split.
    + eapply slife_same; [exact HL2| |]; intros j; unfold more_s, more_t; split.
      * intros [[X|X] Y]; [left|now right]. split; auto. intros t Z. apply (Y t). apply FIX; auto. intros IJ. destruct (WM j IJ). auto.
      * intros [[X Y]|(w & IW & -> & X)].
        -- split; [now left|]. intros t Z. apply (Y t). apply FIX; auto. intros IJ. destruct (WM j IJ). auto.
        -- split; [right; exists w; auto|]. intros t. apply NOS. now apply in_map.
      * intros [[X|X] Y]; [left|now right]. split; auto. intros t Z. apply (Y t). apply FIX; auto. intros IJ. destruct (WM j IJ). auto.
      * intros [[X Y]|(w & IW & -> & X)].
        -- split; [now left|]. intros t Z. apply (Y t). apply FIX; auto. intros IJ. destruct (WM j IJ). auto.
        -- split; [right; exists w; auto|]. intros t. apply NOT. now apply in_map.
    + auto.
Qed.
(** rebase_and_delete also deletes the link, unless that link is misfiled. *)
Lemma L_C85_rebase_and_delete_partial cf tops lops st Ms Mt old new :
  let S := split_links cf tops lops in
  unit_env cf tops lops -> slife cf tops lops st Ms Mt -> linked S st old -> new <> old -> new <> 0 -> (forall j, separable S st j) ->
  (forall l, seen_user S st Ms Mt old l -> ~ Ms (l_index l) /\ ~ Mt (l_index l)) -> (forall x, x <> old -> ~ is_link S st x old old) ->
  ~ Ms old -> ~ Mt old ->
  (forall l, seen_user S st Ms Mt old l -> ~ is_link S st old (l_source (rebased old new l)) (l_target (rebased old new l))) ->
  exists st' W, NoDup W /\ (forall l, In l W <-> seen_user S st Ms Mt old l) /\ no_link S st' old /\
    (forall w, In w W -> li_get S st' (l_index w) = Val (Some (rebased old new w))) /\
    (forall j, j <> old -> ~ In j (map l_index W) -> li_get S st' j = li_get S st j) /\
    slife cf tops lops st' (more_s old new (fun j => Ms j /\ forall t, ~ is_link S st j old t) W)
      (more_t old new (fun j => Mt j /\ forall s, ~ is_link S st j s old) W) /\
    d_rebase_and_delete cf S old new st = Val (st', Ok 0).
Proof.
  intros S ENV HL LI NE N0 SE NM NB MS MT SO. subst S.
  destruct (rebase_then_delete cf tops lops st Ms Mt old new ENV HL LI NE N0 SE NM NB MS MT SO)
    as (st1 & st2 & W & os & ot & ND & IN & NL & R1 & R2 & HL2 & _ & _ & RB & CO).
  exists st2, W. do 6 (split; auto).
  unfold d_rebase_and_delete. rewrite (proj2 (N.eqb_neq old new)) by congruence. rewrite RB. cbn [obind rmap].
  unfold d_delete, d_delete_by. unfold d_delete_by_with. rewrite CO. reflexivity.
Qed.

(** A case: link 1 is misfiled, link 3 refers to itself and to link 2.  The rebase of 2 to 1 turns
    link 3, which becomes misfiled. *)
Definition ex_far : sst := ex_more ref_tree_ops (ex_open ++ [Cr; Up 3 3 2]).
Lemma ex_far_life : slife ex_cf ref_tree_ops ref_list_ops ex_far one one.
Proof.
  assert (L3 : is_link ex_S ex_mis 3 0 0) by (unfold is_link; vm_compute; reflexivity).
  eapply slife_same.
  - apply (slife_update _ _ _ _ _ _ 3 3 2 unit cont tt ex_far tt (Ok Continue) ex_mis_life).
    + right. split; [|discriminate]. split; [exact (ex_mis_separable 3)|]. split; discriminate.
    + vm_compute; reflexivity.
  - intros j. split; [|now left]. intros [X|(_ & _ & os & ot & X & Y)]; [exact X|]. exfalso. apply Y. unfold is_link in *. fold ex_S in X. congruence.
  - intros j. split; [|now left]. intros [X|(_ & _ & os & ot & X & Y)]; [exact X|]. exfalso. apply Y. unfold is_link in *. fold ex_S in X. congruence.
Qed.
Lemma ex_far_links i s t : is_link ex_S ex_far i s t -> In (mkLink i s t) [mkLink 3 3 2; mkLink 2 2 1; mkLink 1 3 3].
Proof. apply (ex_all _ _ _ _ _ _ ex_env ex_far_life). vm_compute; reflexivity. Qed.
Lemma L_C85_rebase_nonvacuous : exists st Ms Mt st' st2,
  slife ex_cf ref_tree_ops ref_list_ops st Ms Mt /\ Ms 1 /\ is_link ex_S st 1 3 3 /\ is_link ex_S st 2 2 1 /\ ~ Ms 2 /\ ~ Mt 2 /\
  (forall j, separable ex_S st j) /\ (forall x, x <> 2 -> ~ is_link ex_S st x 2 2) /\
  (forall l, seen_user ex_S st Ms Mt 2 l <-> l = mkLink 3 3 2) /\ ~ Ms 3 /\ ~ Mt 3 /\
  (forall l, seen_user ex_S st Ms Mt 2 l -> ~ is_link ex_S st 2 (l_source (rebased 2 1 l)) (l_target (rebased 2 1 l))) /\
  more_s 2 1 Ms [mkLink 3 3 2] 3 /\
  d_rebase ex_cf ex_S 2 1 st = Val (st', Ok 1) /\ is_link ex_S st' 3 3 1 /\ is_link ex_S st' 2 2 1 /\
  d_rebase_and_delete ex_cf ex_S 2 1 st = Val (st2, Ok 0) /\ is_link ex_S st2 3 3 1 /\ no_link ex_S st2 2.
Proof.
  exists ex_far, one, one, (match d_rebase ex_cf ex_S 2 1 ex_far with Val (st', _) => st' | _ => ex_far end),
    (match d_rebase_and_delete ex_cf ex_S 2 1 ex_far with Val (st', _) => st' | _ => ex_far end).
  assert (L2 : is_link ex_S ex_far 2 2 1) by (unfold is_link; vm_compute; reflexivity).
  assert (L3 : is_link ex_S ex_far 3 3 2) by (unfold is_link; vm_compute; reflexivity).
  assert (SU : forall l, seen_user ex_S ex_far one one 2 l <-> l = mkLink 3 3 2).
  { intros [i s t]. split.
    - intros (LX & NX & U). cbn [l_index l_source l_target] in *. apply ex_far_links in LX.
      destruct LX as [Q|[Q|[Q|[]]]]; injection Q as <- <- <-; [reflexivity|now elim NX|].
      exfalso. destruct U as [[U _]|[U _]]; discriminate U.
    - intros ->. split; [exact L3|]. split; [discriminate|]. right. split; [reflexivity|]. discriminate. }
  split; [exact ex_far_life|]. split; [reflexivity|]. split; [unfold is_link; vm_compute; reflexivity|]. split; [exact L2|].
  split; [discriminate|]. split; [discriminate|].
  split. { intros j. right. intros x s t LJ LX. apply ex_far_links in LJ, LX.
    destruct LJ as [Q|[Q|[Q|[]]]]; injection Q as <- <- <-; destruct LX as [Q|[Q|[Q|[]]]]; (discriminate Q || (injection Q as <-; reflexivity)). }
  split. { intros x NX LX. apply ex_far_links in LX. destruct LX as [Q|[Q|[Q|[]]]]; discriminate Q. }
  split; [exact SU|]. split; [discriminate|]. split; [discriminate|].
  split. { intros l X. apply SU in X as ->. intros X. apply ex_far_links in X. cbn in X. destruct X as [Q|[Q|[Q|[]]]]; discriminate Q. }
  split. { right. exists (mkLink 3 3 2). repeat split; [now left|discriminate]. }
  split; [vm_compute; reflexivity|]. split; [unfold is_link; vm_compute; reflexivity|]. split; [unfold is_link; vm_compute; reflexivity|].
  split; [vm_compute; reflexivity|]. split; [unfold is_link|unfold no_link]; vm_compute; reflexivity.
Qed.

(** rebase_and_delete says it has replaced a link everywhere, and a link still refers to it. *)
Lemma L_C85_rebase_refuted : exists st Ms Mt st',
  slife ex_cf ref_tree_ops ref_list_ops st Ms Mt /\ linked ex_S st 3 /\ is_link ex_S st 1 3 3 /\ (forall j, separable ex_S st j) /\
  ~ Ms 3 /\ ~ Mt 3 /\ d_rebase_and_delete ex_cf ex_S 3 2 st = Val (st', Ok 0) /\ no_link ex_S st' 3 /\ is_link ex_S st' 1 3 3.
Proof.
  exists ex_mis, one, one, (match d_rebase_and_delete ex_cf ex_S 3 2 ex_mis with Val (st', _) => st' | _ => ex_mis end).
  split; [exact ex_mis_life|]. split; [exists 0, 0; unfold is_link; vm_compute; reflexivity|].
  split; [unfold is_link; vm_compute; reflexivity|]. split; [exact ex_mis_separable|]. split; [discriminate|]. split; [discriminate|].
  split; [vm_compute; reflexivity|]. split; [unfold no_link|unfold is_link]; vm_compute; reflexivity.
Qed.
