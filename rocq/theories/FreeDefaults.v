(** Proofs of the claims about deleting several links of a two-memory store that is used freely,
    as in SplitLife.v (C85). *)
From Coq Require Import NArith List Bool Lia Permutation Sorted.
From Verif Require Import Base Trees Lists TreeInv Spec Iface UnitModel UnitInv UnitOps LinkModel SplitModel Forest
  SplitInv SplitReads SplitOps SplitWrites SplitLinks Doublets DoubletsOK Obs Hist Claims UnitHist TreeImpl SplitHist
  Decorators GoodStore DecoratorClaims Stacks SplitLife SplitFree.
From Verif Require CrashDefaults.
Import CrashDefaults(gone_by, gb_nil, gb_cons, gone_list, usages_with, is_at, NoDup_map_of).
Import ListNotations.
Open Scope N_scope.

(** The links other than [i] that the store finds as users of [i]. *)
Definition seen_user {S} (I : LinksI S) (st : S) (Ms Mt : N -> Prop) (i : N) (l : link) : Prop :=
  is_link I st (l_index l) (l_source l) (l_target l) /\ l_index l <> i /\
  (l_source l = i /\ ~ Ms (l_index l) \/ l_target l = i /\ ~ Mt (l_index l)).
(** The misfiled links once the links [W] are gone: those that refer to none of them. *)
Definition left_s {S} (I : LinksI S) (st : S) (Ms : N -> Prop) (W : list link) (j : N) : Prop :=
  Ms j /\ forall w t, In w W -> ~ is_link I st j (l_index w) t.
Definition left_t {S} (I : LinksI S) (st : S) (Mt : N -> Prop) (W : list link) (j : N) : Prop :=
  Mt j /\ forall w s, In w W -> ~ is_link I st j s (l_index w).

Section D.
  Variables (cf : cfg) (tops : tree_ops) (lops : list_ops).
  Hypothesis ENV : unit_env cf tops lops.
  Notation S := (split_links cf tops lops).

  Lemma frame_link st st' i j s t : frame S st st' i -> j <> i -> is_link S st' j s t <-> is_link S st j s t.
  Proof. intros FR NE. unfold is_link. now rewrite (FR j NE). Qed.
  Lemma delete_many_f : forall W st Ms Mt, slife cf tops lops st Ms Mt -> (forall j, separable S st j) -> NoDup (map l_index W) ->
    (forall w, In w W -> is_link S st (l_index w) (l_source w) (l_target w) /\ ~ Ms (l_index w) /\ ~ Mt (l_index w)) ->
    exists st', gone_by S st W st' /\ slife cf tops lops st' (left_s S st Ms W) (left_t S st Mt W) /\ removed S st st' W.
  Proof.
    induction W as [|w W IH]; intros st Ms Mt HL SE ND A.
    - exists st. split; [constructor|]. split; [|intros j; reflexivity].
      eapply slife_same; [exact HL| |]; intros j; unfold left_s, left_t; split; try tauto; intros X; (split; [exact X|intros ? ? []]).
    - cbn [map] in ND. inversion ND as [|? ? NI ND']; subst. destruct (A w (or_introl eq_refl)) as (LW & W1 & W2).
      destruct (L_C83_delete_partial cf tops lops st Ms Mt _ _ _ ENV HL LW) as (st1 & NL & FR & HL1 & CO); [split; auto|auto|].
      assert (FL : forall j s t, j <> l_index w -> is_link S st1 j s t <-> is_link S st j s t) by (intros; eapply frame_link; eauto).
      assert (GONE : forall s t, ~ is_link S st1 (l_index w) s t) by (unfold is_link, no_link in *; intros; rewrite NL; discriminate).
      assert (NW : forall v, In v W -> l_index v <> l_index w) by (intros v IV E; apply NI; rewrite <- E; now apply in_map).
      destruct (IH st1 _ _ HL1) as (st' & G & HL' & RM); auto.
      + intros j. destruct (N.eq_dec j (l_index w)) as [->|NE]; [right; intros j' s t X; destruct (GONE _ _ X)|].
        destruct (SE j) as [X|X]; [left; now apply FL|right]. intros j' s t Y Z. apply FL in Y; auto.
        destruct (N.eq_dec j' (l_index w)) as [->|NE']; [destruct (GONE _ _ Z)|]. apply FL in Z; eauto.
      + intros v IV. destruct (A v (or_intror IV)) as (V1 & V2 & V3). split; [apply FL; auto|]. split; intros [X _]; auto.
      + exists st'. split; [apply gb_cons with st1; auto; destruct w; exact CO|]. split.
        * eapply slife_same; [exact HL'| |]; intros j; unfold left_s, left_t; split.
          -- intros [[X Y] Z]. split; auto. intros v t [<-|IV]; auto. intros Q. apply (Z v t IV). apply FL; auto. intros ->. auto.
          -- intros [X Y]. split; [split; auto; intros t; apply (Y w); now left|]. intros v t IV Q. assert (NE : j <> l_index w) by (intros ->; auto).
             apply (Y v t (or_intror IV)). now apply FL.
          -- intros [[X Y] Z]. split; auto. intros v s [<-|IV]; auto. intros Q. apply (Z v s IV). apply FL; auto. intros ->. auto.
          -- intros [X Y]. split; [split; auto; intros s; apply (Y w); now left|]. intros v s IV Q. assert (NE : j <> l_index w) by (intros ->; auto).
             apply (Y v s (or_intror IV)). now apply FL.
        * intros j. rewrite (RM j). cbn [map].
          destruct (in_dec N.eq_dec j (map l_index W)) as [I1|I1], (in_dec N.eq_dec j (l_index w :: map l_index W)) as [I2|I2]; auto.
          -- destruct I2. now right.
          -- destruct I2 as [<-|I2]; [exact NL|contradiction].
          -- apply FR. intros ->. apply I2. now left.
  Qed.
  Lemma links_nodup st (W : list link) : NoDup W -> (forall w, In w W -> is_link S st (l_index w) (l_source w) (l_target w)) -> NoDup (map l_index W).
  Proof. intros ND A. apply NoDup_map_of; auto. intros l k X Y E. apply A, is_at in X. apply A, is_at in Y. rewrite <- E in Y. congruence. Qed.
  Lemma linked_bounds st Ms Mt i : slife cf tops lops st Ms Mt -> linked S st i -> i <> 0 /\ i <> c_any cf.
  Proof.
    intros HL LI. destruct (slife_inv cf tops lops ENV _ _ _ HL) as (a & sP & tP & K).
    apply (y_linked cf tops lops ENV _ _ _ _ _ _ _ K) in LI. destruct (y_any cf tops lops ENV _ _ _ _ _ _ K) as [EA _].
    destruct (a_map a i) as [[s t]|] eqn:E; [|contradiction]. apply (awf_some _ _ _ (xi_wf _ _ _ _ _ _ _ K)) in E as E'.
    split; [lia|congruence].
  Qed.
End D.

(** delete_usages deletes the users the store finds and leaves the misfiled ones. *)
Lemma L_C85_delete_usages_partial cf tops lops st Ms Mt i :
  let S := split_links cf tops lops in
  unit_env cf tops lops -> slife cf tops lops st Ms Mt -> linked S st i -> (forall j, separable S st j) ->
  (forall l, seen_user S st Ms Mt i l -> ~ Ms (l_index l) /\ ~ Mt (l_index l)) -> (forall x, x <> i -> ~ is_link S st x i i) ->
  exists st' W, NoDup W /\ (forall l, In l W <-> seen_user S st Ms Mt i l) /\ removed S st st' W /\
    slife cf tops lops st' (left_s S st Ms W) (left_t S st Mt W) /\
    (forall H B (h : uwrite H B) x, d_delete_usages_with cf S h i st x = Val (st', told h W x, Ok tt)) /\
    d_delete_usages cf S i st = Val (st', Ok tt).
Proof.
  intros S ENV HL LI SE NM NB. destruct (linked_bounds cf tops lops ENV _ _ _ _ HL LI) as [I0 IA].
  destruct (L_C83_by_source cf tops lops st Ms Mt i ENV HL I0 IA) as (L1 & A1 & A2 & A3 & A4).
  destruct (L_C83_by_target cf tops lops st Ms Mt i ENV HL I0 IA) as (L2 & B1 & B2 & B3 & B4).
  fold S in A2, A3, A4, B2, B3, B4. specialize (A4 LI). set (W := rev (but i L1 ++ but i L2)).
  assert (IN : forall l, In l W <-> seen_user S st Ms Mt i l).
  { intros l. unfold W, seen_user. rewrite <- in_rev, in_app_iff, !in_but, A2, B2. tauto. }
  assert (ND : NoDup W).
  { unfold W. apply NoDup_rev. apply NoDup_app_intro; [now apply NoDup_filter|now apply NoDup_filter|].
    intros l X Y. apply in_but in X as [X Z], Y as [Y _]. apply A2 in X as (X1 & X2 & _). apply B2 in Y as (_ & Y2 & _).
    apply (NB _ Z). now rewrite X2, Y2 in X1. }
  assert (LW : forall w, In w W -> is_link S st (l_index w) (l_source w) (l_target w)) by (intros w IW; now apply IN in IW as (X & _)).
  destruct (delete_many_f cf tops lops ENV W st Ms Mt HL SE) as (st' & G & HL' & RM).
  { now apply (links_nodup cf tops lops st). }
  { intros w IW. split; [now apply LW|]. now apply NM, IN. }
  exists st', W. split; auto. split; auto. split; auto. split; auto.
  assert (E : forall H B (h : uwrite H B) x, d_delete_usages_with cf S h i st x = Val (st', told h W x, Ok tt)).
  { intros H B h x. rewrite (usages_with cf S st i L1 L2 H B h x (conj A3 A4) (conj B3 B4)). fold W. rewrite (gone_list S _ _ _ G). reflexivity. }
  split; auto. unfold d_delete_usages. rewrite E. reflexivity.
Qed.

(** delete_query of the links with a given source, a given target, or all. *)
Definition answers {S} (I : LinksI S) (st : S) (any : N) (Ms Mt : N -> Prop) (q : list N) (l : link) : Prop :=
  is_link I st (l_index l) (l_source l) (l_target l) /\
  (q = [] \/ (exists v, q = [any; v; any] /\ l_source l = v /\ ~ Ms (l_index l)) \/ (exists v, q = [any; any; v] /\ l_target l = v /\ ~ Mt (l_index l))).
Lemma L_C85_delete_query_partial cf tops lops st Ms Mt q :
  let S := split_links cf tops lops in let any := c_any cf in
  unit_env cf tops lops -> slife cf tops lops st Ms Mt -> (forall j, separable S st j) ->
  q = [] \/ (exists v, q = [any; v; any] /\ v <> any /\ linked S st v) \/ (exists v, q = [any; any; v] /\ v <> any /\ v <> 0) ->
  (forall l, answers S st any Ms Mt q l -> ~ Ms (l_index l) /\ ~ Mt (l_index l)) ->
  exists st' W, NoDup W /\ (forall l, In l W <-> answers S st any Ms Mt q l) /\ removed S st st' W /\
    slife cf tops lops st' (left_s S st Ms W) (left_t S st Mt W) /\
    forall H B (h : uwrite H B) x, d_delete_query_with S h q st x = Val (st', told h W x, Ok tt).
Proof.
  intros S any ENV HL SE Q NM.
  assert (VI : exists L, NoDup L /\ visits S st q L /\ forall l, In l L <-> answers S st any Ms Mt q l).
  { destruct Q as [->|[(v & -> & VA & LV)|(v & -> & VA & V0)]].
    - destruct (L_C83_count_and_each_all cf tops lops st Ms Mt [] ENV HL) as (L & [AL1 AL2] & C & E); [auto|]. exists L. split.
      { clear -AL1. induction AL1 as [|l L AL1 IH F]; [constructor|]. constructor; auto. intros I. rewrite Forall_forall in F. apply F in I. lia. }
      split; [split; auto|]. intros [i s t]. unfold answers. cbn [l_index l_source l_target]. fold S in AL2. rewrite AL2. intuition auto.
    - destruct (linked_bounds cf tops lops ENV _ _ _ _ HL LV) as [V0 _].
      destruct (L_C83_by_source cf tops lops st Ms Mt v ENV HL V0 VA) as (L & A1 & A2 & A3 & A4). exists L. split; auto. split; [split; auto|].
      intros l. rewrite A2. unfold answers. split; [intros (X & Y & Z); split; auto; right; left; eauto|].
      intros (X & [E|[(v' & E & Y & Z)|(v' & E & _)]]); [discriminate E| |].
      + injection E as <-. auto.
      + injection E as E1 E2. exfalso. now apply VA.
    - destruct (L_C83_by_target cf tops lops st Ms Mt v ENV HL V0 VA) as (L & A1 & A2 & A3 & A4). exists L. split; auto. split; [split; auto|].
      intros l. rewrite A2. unfold answers. split; [intros (X & Y & Z); split; auto; right; right; eauto|].
      intros (X & [E|[(v' & E & _)|(v' & E & Y & Z)]]); [discriminate E| |].
      + injection E as E1 E2. exfalso. now apply VA.
      + injection E as <-. auto. }
  destruct VI as (L & ND & V & IN). set (W := rev L).
  assert (IW : forall l, In l W <-> answers S st any Ms Mt q l) by (intros l; unfold W; rewrite <- in_rev; apply IN).
  destruct (delete_many_f cf tops lops ENV W st Ms Mt HL SE) as (st' & G & HL' & RM).
  { apply (links_nodup cf tops lops st); [now apply NoDup_rev|]. intros w X. now apply IW in X as (X & _). }
  { intros w X. apply IW in X. split; [apply X|now apply NM]. }
  exists st', W. split; [now apply NoDup_rev|]. split; auto. split; auto. split; auto.
  intros H B h x. unfold d_delete_query_with, d_count_by. rewrite (proj2 V). cbn [obind].
  rewrite (d_each_by_ok _ _ _ _ _ _ _ _ V), urun_map. cbn [obind app]. rewrite <- map_rev. fold W.
  rewrite (gone_list S _ _ _ G). reflexivity.
Qed.

(** Cases the claims apply to, with a misfiled link. *)
Lemma ex_mis_links i s t : is_link ex_S ex_mis i s t -> In (mkLink i s t) [mkLink 3 0 0; mkLink 2 2 1; mkLink 1 3 3].
Proof.
  apply (ex_all _ _ _ _ _ _ ex_env ex_mis_life). vm_compute; reflexivity.
Qed.
Lemma ex_mis_separable j : separable ex_S ex_mis j.
Proof.
  right. intros x s t LJ LX. apply ex_mis_links in LJ, LX.
  destruct LJ as [Q|[Q|[Q|[]]]]; injection Q as <- <- <-; destruct LX as [Q|[Q|[Q|[]]]]; (discriminate Q || (injection Q as <-; reflexivity)).
Qed.
Lemma L_C85_several_nonvacuous : exists st Ms Mt, let q := [c_any ex_cf; c_any ex_cf; 1] in
  slife ex_cf ref_tree_ops ref_list_ops st Ms Mt /\ Ms 1 /\ Mt 1 /\ is_link ex_S st 1 3 3 /\ is_link ex_S st 2 2 1 /\
  (forall j, separable ex_S st j) /\ (forall x, x <> 1 -> ~ is_link ex_S st x 1 1) /\
  seen_user ex_S st Ms Mt 1 (mkLink 2 2 1) /\ (forall l, seen_user ex_S st Ms Mt 1 l -> ~ Ms (l_index l) /\ ~ Mt (l_index l)) /\
  answers ex_S st (c_any ex_cf) Ms Mt q (mkLink 2 2 1) /\
  (forall l, answers ex_S st (c_any ex_cf) Ms Mt q l -> ~ Ms (l_index l) /\ ~ Mt (l_index l)) /\
  exists st', d_delete_usages ex_cf ex_S 1 st = Val (st', Ok tt) /\ no_link ex_S st' 2 /\ is_link ex_S st' 1 3 3.
Proof.
  exists ex_mis, one, one. cbv zeta.
  assert (L2 : is_link ex_S ex_mis 2 2 1) by (unfold is_link; vm_compute; reflexivity).
  assert (N2 : ~ one 2) by (intros Z; discriminate Z).
  split; [exact ex_mis_life|]. split; [reflexivity|]. split; [reflexivity|].
  split; [unfold is_link; vm_compute; reflexivity|]. split; [exact L2|]. split; [exact ex_mis_separable|].
  split. { intros x NX LX. apply ex_mis_links in LX. destruct LX as [Q|[Q|[Q|[]]]]; discriminate Q. }
  split. { split; [exact L2|]. split; [discriminate|]. right. split; [reflexivity|exact N2]. }
  split. { intros [i s t] (LX & NX & U). cbn [l_index l_source l_target] in *. apply ex_mis_links in LX.
    destruct LX as [Q|[Q|[Q|[]]]]; injection Q as <- <- <-; [|auto|now elim NX]. split; intros Z; discriminate Z. }
  split. { split; [exact L2|]. right. right. exists 1. auto. }
  split. { intros [i s t] (LX & U). cbn [l_index l_source l_target] in *. apply ex_mis_links in LX.
    destruct LX as [Q|[Q|[Q|[]]]]; injection Q as <- <- <-; [split; intros Z; discriminate Z|auto|].
    exfalso. destruct U as [U|[(v & U & V & W)|(v & U & V & W)]]; [discriminate U|apply W; reflexivity|apply W; reflexivity]. }
  exists (match d_delete_usages ex_cf ex_S 1 ex_mis with Val (st', _) => st' | _ => ex_mis end).
  split; [vm_compute; reflexivity|]. split; [unfold no_link|unfold is_link]; vm_compute; reflexivity.
Qed.

(** delete_usages says it has deleted the users of a link, and a user is still there. *)
Lemma L_C85_delete_usages_refuted : exists st Ms Mt st',
  slife ex_cf ref_tree_ops ref_list_ops st Ms Mt /\ linked ex_S st 3 /\ is_link ex_S st 1 3 3 /\ (forall j, separable ex_S st j) /\
  d_delete_usages ex_cf ex_S 3 st = Val (st', Ok tt) /\ is_link ex_S st' 1 3 3.
Proof.
  exists ex_mis, one, one, (match d_delete_usages ex_cf ex_S 3 ex_mis with Val (st', _) => st' | _ => ex_mis end).
  split; [exact ex_mis_life|]. split; [exists 0, 0; unfold is_link; vm_compute; reflexivity|].
  split; [unfold is_link; vm_compute; reflexivity|]. split; [exact ex_mis_separable|].
  split; [|unfold is_link]; vm_compute; reflexivity.
Qed.
