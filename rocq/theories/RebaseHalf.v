(** What rebase does when a link uses the old index at both ends (proofs; the statements are
    repeated in PropRebaseHalf.v). *)
From Coq Require Import NArith List Bool Lia Permutation Sorted.
From Verif Require Import Base Trees Lists Spec Iface UnitModel UnitInv UnitOps UnitLinks
  Doublets Obs DoubletsOK Hist Claims TreeImpl UnitHist UnitClaims DefaultClaims
  SplitModel SplitInv SplitReads SplitOps SplitWrites SplitLinks SplitHist SplitClaims SplitDefaults.
Import ListNotations.
Open Scope N_scope.

(** The pair rebase leaves to a link that had the pair [(s, t)]: a link that used [old] at both
    ends has only its target redirected. *)
Definition half_pair (old new s t : N) : N * N :=
  if (s =? old) && (t =? old) then (old, new) else (redirect old new s, redirect old new t).
Definition half_moved {S} (I : LinksI S) (st : S) (old new i s' t' : N) : Prop :=
  exists s t, is_link I st i s t /\ (s', t') = (if i =? old then (s, t) else half_pair old new s t).
(** No link holds the old and the new index, in either order, while a link other than [old]
    uses [old] at both ends. *)
Definition no_cross {S} (I : LinksI S) (st : S) (old new : N) : Prop :=
  forall x y, x <> old -> is_link I st x old old -> ~ is_link I st y old new /\ ~ is_link I st y new old.

Lemma redirect_not old new v : old <> new -> redirect old new v <> old.
Proof. unfold redirect. destruct (N.eqb_spec v old); congruence. Qed.
Lemma redirect_other old new v : v <> old -> redirect old new v = v.
Proof. unfold redirect. destruct (N.eqb_spec v old); congruence. Qed.
Lemma half_pair_plain old new s t : (s, t) <> (old, old) -> half_pair old new s t = (redirect old new s, redirect old new t).
Proof. unfold half_pair. destruct (N.eqb_spec s old), (N.eqb_spec t old); cbn [andb]; congruence. Qed.
Lemma half_pair_double old new : half_pair old new old old = (old, new).
Proof. unfold half_pair. now rewrite N.eqb_refl. Qed.

Section Half.
  Variable cf : cfg.
  Hypothesis CF : cfg_ok cf.
  Variable sp : store_spec.
  Context {S : Type}.
  Variable I : LinksI S.
  Variable R : S -> astate -> Prop.
  Hypothesis IOK : links_ok cf sp I R.
  Variables (st : S) (a : astate) (old new : N).
  Hypothesis HR : R st a.
  Hypothesis NE : old <> new.
  Hypothesis LO : a_map a old <> None.
  Hypothesis O0 : old <> 0.
  Hypothesis DI : adistinct a.
  Let fin (i : N) : option (N * N) :=
    match a_map a i with
    | Some (s, t) => Some (if i =? old then (s, t) else half_pair old new s t)
    | None => None
    end.
  Hypothesis FD : forall i j p, fin i = Some p -> fin j = Some p -> p <> (0, 0) -> i = j.
  Hypothesis NC : forall x y, x <> old -> a_map a x = Some (old, old) ->
    a_map a y <> Some (old, new) /\ a_map a y <> Some (new, old).

  Definition isusage (u : link) : Prop :=
    a_map a (l_index u) = Some (l_source u, l_target u) /\ l_index u <> old /\
    (l_source u = old \/ l_target u = old).
  Hypothesis UU : forall a' u s t, isusage u -> adistinct a' ->
    (s = l_source u \/ s = new) -> (t = l_target u \/ t = new) -> sp_update sp a' (l_index u) s t.

  (** The pairs a link may have at any moment of the rebase. *)
  Definition poss (i : N) (p : N * N) : Prop := exists s t, a_map a i = Some (s, t) /\
    (p = (s, t) \/ (i <> old /\ (s, t) <> (old, old) /\ p = (redirect old new s, redirect old new t)) \/
     (i <> old /\ (s, t) = (old, old) /\ (p = (new, old) \/ p = (old, new)))).

  Lemma poss_fin i p : fin i = Some p -> poss i p.
  Proof.
    unfold fin, poss. destruct (a_map a i) as [[s t]|]; [|discriminate]. intros [= <-]. exists s, t. split; auto.
    destruct (N.eqb_spec i old) as [|NO]; auto. destruct (N.eq_dec s old) as [->|NS].
    - destruct (N.eq_dec t old) as [->|NT]; [rewrite half_pair_double; auto 6|].
      rewrite half_pair_plain by congruence. right; left. repeat split; congruence.
    - rewrite half_pair_plain by congruence. right; left. repeat split; congruence.
  Qed.
  Lemma fin_redirected i s t : i <> old -> a_map a i = Some (s, t) -> (s, t) <> (old, old) ->
    fin i = Some (redirect old new s, redirect old new t).
  Proof. intros X M D. unfold fin. rewrite M. destruct (N.eqb_spec i old); [contradiction|]. now rewrite half_pair_plain. Qed.
  Lemma fin_plain i s t : a_map a i = Some (s, t) -> s <> old -> t <> old -> fin i = Some (s, t).
  Proof.
    intros M A B. unfold fin. rewrite M. destruct (i =? old); auto.
    rewrite half_pair_plain by congruence. now rewrite !redirect_other.
  Qed.

  Lemma poss_unique i j p : poss i p -> poss j p -> p <> (0, 0) -> i = j.
  Proof.
    intros (si & ti & Mi & Pi) (sj & tj & Mj & Pj) NZ.
    assert (OR : forall i j si ti sj tj, a_map a i = Some (si, ti) -> a_map a j = Some (sj, tj) -> p = (si, ti) ->
      j <> old -> (sj, tj) <> (old, old) -> p = (redirect old new sj, redirect old new tj) -> i = j).
    { clear - NE FD NZ. intros i j si ti sj tj Mi Mj E1 X D E2. apply (FD i j p); auto.
      - rewrite E1. apply fin_plain; auto; rewrite E1 in E2; injection E2 as -> ->; now apply redirect_not.
      - rewrite E2. now apply fin_redirected. }
    assert (DP : forall i si ti, a_map a i = Some (si, ti) -> p = (si, ti) -> forall j, j <> old -> a_map a j = Some (old, old) ->
      p = (new, old) \/ p = (old, new) -> i = j).
    { clear - NC. intros i si ti Mi E1 j X Mj E2. exfalso. destruct (NC j i X Mj) as [K1 K2].
      destruct E2 as [E2|E2]; congruence. }
    assert (DR : forall s t, p = (redirect old new s, redirect old new t) -> p = (new, old) \/ p = (old, new) -> False).
    { clear - NE. intros s t E [K|K]; rewrite E in K; injection K as K1 K2; [apply (redirect_not old new t NE K2)|apply (redirect_not old new s NE K1)]. }
    destruct Pi as [Ei|[(Xi & Di & Ei)|(Xi & Di & Ei)]], Pj as [Ej|[(Xj & Dj & Ej)|(Xj & Dj & Ej)]].
    - apply (DI i j p); congruence.
    - eapply OR; eauto.
    - eapply DP; eauto. congruence.
    - symmetry. eapply OR; eauto.
    - apply (FD i j p); auto; [rewrite Ei|rewrite Ej]; now apply fin_redirected.
    - exfalso. eauto.
    - symmetry. eapply DP; eauto. congruence.
    - exfalso. eauto.
    - apply (DI i j (old, old)); congruence.
  Qed.
  Lemma poss_distinct a' : (forall i p, a_map a' i = Some p -> poss i p) -> adistinct a'.
  Proof. intros P i j p M1 M2 NZ. eapply poss_unique; eauto. Qed.

  (** Part way through: the links of [dn] have been visited.  A link may be visited twice. *)
  Lemma half_run l : forall dn a', (forall u, In u (dn ++ l) -> isusage u) ->
    (forall i, a_map a' i = if in_dec N.eq_dec i (map l_index dn) then fin i else a_map a i) ->
    upd_ok sp a' (flat_map (rebase_steps old new) l) /\
    forall i, a_map (a_updates a' (flat_map (rebase_steps old new) l)) i =
              if in_dec N.eq_dec i (map l_index (dn ++ l)) then fin i else a_map a i.
  Proof.
    induction l as [|u l IH]; intros dn a' U M.
    - cbn [flat_map upd_ok]. split; [exact Logic.I|]. rewrite app_nil_r. exact M.
    - assert (Uu : isusage u) by (apply U, in_or_app; right; now left).
      pose proof Uu as (U1 & U2 & U3).
      assert (PO : forall i p, a_map a' i = Some p -> poss i p).
      { intros i p. rewrite M. destruct (in_dec N.eq_dec i (map l_index dn)); [apply poss_fin|].
        intros E. destruct p as [s t]. exists s, t. auto. }
      assert (LK : a_map a' (l_index u) <> None).
      { rewrite M. destruct (in_dec N.eq_dec (l_index u) (map l_index dn)); [|congruence].
        unfold fin. rewrite U1. discriminate. }
      assert (NXT : forall a2, (forall i, a_map a2 i = if i =? l_index u then fin i else a_map a' i) ->
        upd_ok sp a2 (flat_map (rebase_steps old new) l) /\
        forall i, a_map (a_updates a2 (flat_map (rebase_steps old new) l)) i =
          if in_dec N.eq_dec i (map l_index (dn ++ u :: l)) then fin i else a_map a i).
      { intros a2 M2. specialize (IH (dn ++ [u]) a2). rewrite <- app_assoc in IH. cbn [app] in IH. apply IH; auto.
        intros i. rewrite M2, M. destruct (N.eqb_spec i (l_index u)) as [->|NI].
        - destruct (in_dec N.eq_dec (l_index u) (map l_index (dn ++ [u]))) as [|C]; auto.
          exfalso. apply C. rewrite map_app. apply in_or_app. right. now left.
        - destruct (in_dec N.eq_dec i (map l_index dn)) as [K|K], (in_dec N.eq_dec i (map l_index (dn ++ [u]))) as [K'|K']; auto.
          + exfalso. apply K'. rewrite map_app. apply in_or_app. now left.
          + exfalso. rewrite map_app in K'. apply in_app_or in K' as [K'|[K'|[]]]; [contradiction|]. cbn in K'. congruence. }
      assert (STEP : forall s t, (s = l_source u \/ s = new) -> (t = l_target u \/ t = new) -> sp_update sp a' (l_index u) s t).
      { intros s t A B. apply UU; auto. now apply poss_distinct. }
      cbn [flat_map]. unfold rebase_steps at 1 3.
      destruct (N.eqb_spec (l_source u) old) as [ES|ES], (N.eqb_spec (l_target u) old) as [ET|ET].
      + cbn [app upd_ok]. rewrite ES, ET. rewrite ES, ET in U1.
        set (a1 := a_update a' (l_index u) new old).
        assert (D1 : adistinct a1).
        { apply poss_distinct. intros i p. cbn [a1 a_update a_map]. unfold upd. destruct (N.eqb_spec i (l_index u)) as [->|]; [|apply PO].
          intros [= <-]. exists old, old. split; auto. right; right. auto. }
        destruct (NXT (a_update a1 (l_index u) old new)) as [N1 N2].
        { intros i. cbn [a1 a_update a_map]. unfold upd. destruct (N.eqb_spec i (l_index u)) as [->|]; auto.
          unfold fin. rewrite U1. destruct (N.eqb_spec (l_index u) old); [contradiction|]. now rewrite half_pair_double. }
        split; [|exact N2]. split; auto. split; [apply STEP; auto|]. fold a1. split.
        { cbn [a1 a_update a_map]. rewrite upd_same. discriminate. }
        split; [|exact N1]. apply UU; auto.
      + cbn [app upd_ok]. destruct (NXT (a_update a' (l_index u) new (l_target u))) as [N1 N2].
        { intros i. cbn [a_update a_map]. unfold upd. destruct (N.eqb_spec i (l_index u)) as [->|]; auto.
          rewrite (fin_redirected _ _ _ U2 U1) by congruence. unfold redirect at 1. rewrite ES, N.eqb_refl.
          now rewrite redirect_other. }
        split; [|exact N2]. split; auto.
      + cbn [app upd_ok]. destruct (NXT (a_update a' (l_index u) (l_source u) new)) as [N1 N2].
        { intros i. cbn [a_update a_map]. unfold upd. destruct (N.eqb_spec i (l_index u)) as [->|]; auto.
          rewrite (fin_redirected _ _ _ U2 U1) by congruence. unfold redirect at 2. rewrite ET, N.eqb_refl.
          now rewrite redirect_other. }
        split; [|exact N2]. split; auto.
      + destruct U3; contradiction.
  Qed.

  Lemma half_final : src_seen cf I st old -> tgt_seen cf I st old ->
    exists st' a', R st' a' /\ (forall i, a_map a' i = fin i) /\ adistinct a' /\
      (forall H B (h : uwrite H B) x, exists x', d_rebase_with cf I h old new st x = Val (st', x', Ok tt)) /\
      d_rebase cf I old new st = Val (st', Ok new).
  Proof.
    intros (L1 & V1 & ND1 & K1) (L2 & V2 & ND2 & K2).
    set (us := filter (fun u => negb (l_index u =? old)) (L1 ++ L2)).
    assert (OL : forall l, li_get I st (l_index l) = Val (Some l) <-> a_map a (l_index l) = Some (l_source l, l_target l)).
    { intros [j s t]. apply (ob_link cf sp I R IOK _ _ _ _ _ HR). }
    assert (US : forall u, In u us <-> isusage u).
    { intros u. unfold us, isusage. rewrite filter_In, in_app_iff, K1, K2, negb_true_iff, N.eqb_neq, OL. tauto. }
    destruct (half_run us [] a) as [UO MF].
    { intros u Hu. now apply US. }
    { intros i. reflexivity. }
    cbn [app] in MF.
    destruct (d_rebase_with_ok cf sp I R IOK st a old new L1 L2 HR NE LO V1 V2 UO) as (st' & R' & G1 & G2).
    fold us in R'. exists st', (a_updates a (flat_map (rebase_steps old new) us)). split; auto.
    assert (MM : forall i, a_map (a_updates a (flat_map (rebase_steps old new) us)) i = fin i).
    { intros i. rewrite MF. destruct (in_dec N.eq_dec i (map l_index us)) as [|NI]; auto.
      unfold fin. destruct (a_map a i) as [[s t]|] eqn:E; auto. destruct (N.eqb_spec i old) as [|NO]; auto.
      assert (NS : s <> old).
      { intros ->. apply NI. apply in_map_iff. exists (mkLink i old t). split; auto. apply US. repeat split; auto. }
      assert (NT : t <> old).
      { intros ->. apply NI. apply in_map_iff. exists (mkLink i s old). split; auto. apply US. repeat split; auto. }
      rewrite half_pair_plain by congruence. now rewrite !redirect_other. }
    split; auto. split; [|auto]. apply poss_distinct. intros i p E. rewrite MM in E. now apply poss_fin.
  Qed.
End Half.

(** The same in terms of what can be observed. *)
Lemma g_rebase_half cf (CF : cfg_ok cf) sp {S} (I : LinksI S) R (IOK : links_ok cf sp I R) st a old new : R st a ->
  (forall a' u s t, user I st old u -> adistinct a' -> (s = l_source u \/ s = new) -> (t = l_target u \/ t = new) ->
     sp_update sp a' (l_index u) s t) ->
  src_seen cf I st old -> tgt_seen cf I st old -> old <> new -> linked I st old -> distinct_pairs I st ->
  no_cross I st old new ->
  (forall i j s t, half_moved I st old new i s t -> half_moved I st old new j s t -> (s, t) <> (0, 0) -> i = j) ->
  exists st' a', R st' a' /\ (forall i s t, is_link I st' i s t <-> half_moved I st old new i s t) /\ adistinct a' /\
    (forall H B (h : uwrite H B) x, exists x', d_rebase_with cf I h old new st x = Val (st', x', Ok tt)) /\
    d_rebase cf I old new st = Val (st', Ok new).
Proof.
  intros HR UU SS TS NE LO DP NC FD. apply (ob_linked cf sp I R IOK _ _ _ HR) in LO. apply (ob_distinct cf sp I R IOK _ _ HR) in DP.
  destruct (exists_range cf sp I R IOK _ _ _ CF HR LO) as (O0 & OA & _).
  assert (MV : forall i s t, half_moved I st old new i s t <->
    match a_map a i with
    | Some (s, t) => Some (if i =? old then (s, t) else half_pair old new s t)
    | None => None
    end = Some (s, t)).
  { intros i s t. unfold half_moved. setoid_rewrite (ob_link cf sp I R IOK _ _ _ _ _ HR). split.
    - intros (s0 & t0 & -> & ->). reflexivity.
    - destruct (a_map a i) as [[s0 t0]|]; [|discriminate]. intros [= K]. eauto. }
  destruct (half_final cf sp I R IOK st a old new HR NE LO O0 DP) as (st' & a' & R' & M & AD & E); auto.
  - intros i j [s t] K1 K2 NZ. apply (FD i j s t); auto; now apply MV.
  - intros x y X K. apply (ob_link cf sp I R IOK _ _ _ _ _ HR) in K. destruct (NC x y X K) as [A B].
    rewrite (ob_link cf sp I R IOK _ _ _ _ _ HR) in A. rewrite (ob_link cf sp I R IOK _ _ _ _ _ HR) in B. auto.
  - intros a' u s t (U1 & U2 & U3). apply UU. split; auto. destruct u; now apply (ob_link cf sp I R IOK _ _ _ _ _ HR).
  - exists st', a'. split; auto. split; auto. intros i s t. rewrite MV, <- M. apply (ob_link cf sp I R IOK _ _ _ _ _ R').
Qed.
Lemma half_keeps_double {S} (I : LinksI S) st old new x : x <> old -> is_link I st x old old -> half_moved I st old new x old new.
Proof. intros X L. exists old, old. split; auto. destruct (N.eqb_spec x old); [contradiction|]. now rewrite half_pair_double. Qed.
(** Whatever else happens, an index is left in use exactly if it was used at both ends. *)
Lemma half_left {S} (I : LinksI S) st st' old new : old <> new ->
  (forall i s t, is_link I st' i s t <-> half_moved I st old new i s t) ->
  forall i s t, i <> old -> is_link I st' i s t -> s = old \/ t = old -> is_link I st i old old /\ s = old /\ t = new.
Proof.
  intros NE M i s t X L U. apply M in L as (s0 & t0 & L & E). destruct (N.eqb_spec i old); [contradiction|].
  destruct (N.eq_dec s0 old) as [->|NS]; [destruct (N.eq_dec t0 old) as [->|NT]|].
  - rewrite half_pair_double in E. injection E as -> ->. auto.
  - rewrite half_pair_plain in E by congruence. injection E as -> ->. exfalso. destruct U as [U|U]; now apply redirect_not in U.
  - rewrite half_pair_plain in E by congruence. injection E as -> ->. exfalso. destruct U as [U|U]; now apply redirect_not in U.
Qed.
Lemma half_and_delete cf (CF : cfg_ok cf) sp {S} (I : LinksI S) R (IOK : links_ok cf sp I R) (SPD : forall a i, adistinct a -> sp_delete sp a i)
  st st1 a1 old new : R st1 a1 -> adistinct a1 -> old <> new -> linked I st old ->
  (forall i s t, is_link I st1 i s t <-> half_moved I st old new i s t) -> d_rebase cf I old new st = Val (st1, Ok new) ->
  exists st2, R st2 (a_delete a1 old) /\ d_rebase_and_delete cf I old new st = Val (st2, Ok 0) /\ no_link I st2 old /\
    forall i s t, is_link I st2 i s t <-> i <> old /\ half_moved I st old new i s t.
Proof.
  intros K1 AD NE (s0 & t0 & L0) M1 E1.
  assert (L1 : is_link I st1 old s0 t0).
  { apply M1. exists s0, t0. split; auto. now rewrite N.eqb_refl. }
  pose proof (proj1 (ob_link cf sp I R IOK _ _ _ _ _ K1) L1) as L1a.
  destruct (d_delete_with_ok cf sp I R IOK st1 a1 old s0 t0 K1 L1a (SPD a1 old AD)) as (st2 & K2 & _ & E2).
  exists st2. split; auto. split.
  - unfold d_rebase_and_delete. destruct (N.eqb_spec old new); [contradiction|]. rewrite E1. exact E2.
  - pose proof (a_delete_map a1 old) as MD.
    split; [apply (ob_none cf sp I R IOK _ _ _ K2); rewrite MD; apply upd_same|].
    intros i s t. rewrite (ob_link cf sp I R IOK _ _ _ _ _ K2), MD.
    destruct (N.eq_dec i old) as [->|NI].
    + rewrite upd_same. split; [discriminate|tauto].
    + rewrite upd_other by auto. rewrite <- (ob_link cf sp I R IOK _ _ _ _ _ K1), M1. tauto.
Qed.

(** * C18, C50 *)
(** With links that use the old index at both ends allowed: such a link keeps the old index as
    its source, and only such a link does. *)
Lemma L_C18_rebase_halves cf tops lops st d old new :
  let U := unit_links cf tops lops in
  unit_env cf tops lops -> u_hist cf tops lops st d -> distinct_pairs U st ->
  old <> new -> linked U st old -> no_cross U st old new ->
  (forall i j s t, half_moved U st old new i s t -> half_moved U st old new j s t -> (s, t) <> (0, 0) -> i = j) ->
  exists st', (exists d', u_hist cf tops lops st' d') /\ d_rebase cf U old new st = Val (st', Ok new) /\
    (forall i s t, is_link U st' i s t <-> half_moved U st old new i s t) /\
    (forall x, x <> old -> is_link U st x old old -> is_link U st' x old new) /\
    (forall i s t, i <> old -> is_link U st' i s t -> s = old \/ t = old -> is_link U st i old old /\ s = old /\ t = new).
Proof.
  intros U ENV HH DP NE LK NC FD. uopen a K D. pose proof (uh_links_ok _ _ _ ENV) as OK. pose proof (e_cf _ _ _ ENV) as CF.
  pose proof LK as LK'. apply (ob_linked cf _ U _ OK _ _ _ K) in LK'.
  destruct (exists_range cf _ U _ OK _ _ _ CF K LK') as (O0 & OA & _).
  destruct (g_rebase_half cf CF _ U _ OK st a old new K) as (st' & a' & K' & M & _ & _ & E); auto.
  - intros a' u s t _ AD _ _. apply (e_spu cf). now apply adistinct_detachable.
  - exact (visits_src cf CF _ U _ OK (i_spq _ _ _ ENV) st a old K O0 OA).
  - exact (visits_tgt cf CF _ U _ OK (i_spq _ _ _ ENV) st a old K O0 OA).
  - exists st'. split; [apply K'|]. split; auto. split; auto. split.
    + intros x X L. apply M. now apply half_keeps_double.
    + now apply half_left.
Qed.
Lemma L_C50_rebase_and_delete_halves cf tops lops st d old new :
  let U := unit_links cf tops lops in
  unit_env cf tops lops -> u_hist cf tops lops st d -> distinct_pairs U st ->
  old <> new -> linked U st old -> no_cross U st old new ->
  (forall i j s t, half_moved U st old new i s t -> half_moved U st old new j s t -> (s, t) <> (0, 0) -> i = j) ->
  exists st', (exists d', u_hist cf tops lops st' d') /\ d_rebase_and_delete cf U old new st = Val (st', Ok 0) /\
    no_link U st' old /\ (forall i s t, is_link U st' i s t <-> i <> old /\ half_moved U st old new i s t) /\
    (forall x, x <> old -> is_link U st x old old -> is_link U st' x old new).
Proof.
  intros U ENV HH DP NE LK NC FD. uopen a K D. pose proof (uh_links_ok _ _ _ ENV) as OK. pose proof (e_cf _ _ _ ENV) as CF.
  pose proof LK as LK'. apply (ob_linked cf _ U _ OK _ _ _ K) in LK'.
  destruct (exists_range cf _ U _ OK _ _ _ CF K LK') as (O0 & OA & _).
  destruct (g_rebase_half cf CF _ U _ OK st a old new K) as (st1 & a1 & K1 & M & AD & _ & E); auto.
  - intros a' u s t _ AD _ _. apply (e_spu cf). now apply adistinct_detachable.
  - exact (visits_src cf CF _ U _ OK (i_spq _ _ _ ENV) st a old K O0 OA).
  - exact (visits_tgt cf CF _ U _ OK (i_spq _ _ _ ENV) st a old K O0 OA).
  - destruct (half_and_delete cf CF _ U _ OK) with (st := st) (st1 := st1) (a1 := a1) (old := old) (new := new) as (st2 & K2 & E2 & NL & M2); auto.
    { intros b i B. apply (e_spd cf). now apply adistinct_detachable. }
    exists st2. split; [apply K2|]. split; auto. split; auto. split; auto.
    intros x X L. apply M2. split; auto. now apply half_keeps_double.
Qed.

(** * C57 *)
Lemma L_C57_split_rebase_halves cf tops lops st d old new :
  let SL := split_links cf tops lops in
  unit_env cf tops lops -> s_hist cf tops lops st d -> distinct_pairs SL st ->
  old <> new -> new <> 0 -> linked SL st old -> plain_users SL st old new -> no_cross SL st old new ->
  (forall i j s t, half_moved SL st old new i s t -> half_moved SL st old new j s t -> (s, t) <> (0, 0) -> i = j) ->
  exists st', (exists d', s_hist cf tops lops st' d') /\ d_rebase cf SL old new st = Val (st', Ok new) /\
    (forall i s t, is_link SL st' i s t <-> half_moved SL st old new i s t) /\
    (forall x, x <> old -> is_link SL st x old old -> is_link SL st' x old new) /\
    (forall i s t, i <> old -> is_link SL st' i s t -> s = old \/ t = old -> is_link SL st i old old /\ s = old /\ t = new) /\
    exists st2, (exists d2, s_hist cf tops lops st2 d2) /\ d_rebase_and_delete cf SL old new st = Val (st2, Ok 0) /\
      no_link SL st2 old /\ (forall i s t, is_link SL st2 i s t <-> i <> old /\ half_moved SL st old new i s t).
Proof.
  intros SL ENV HH DP NE N0 LK PU NC FD. shopen a K D. pose proof (sh_links_ok _ _ _ ENV) as OK. pose proof (f_cf _ _ _ ENV) as CF.
  destruct (sh_seen cf tops lops ENV st a old K LK) as [SS TS].
  destruct (usage_queries cf tops lops ENV st a old K LK) as (O0 & _ & _).
  assert (VI : visible a) by apply K.
  destruct (g_rebase_half cf CF _ SL _ OK st a old new K) as (st1 & a1 & K1 & M & AD & _ & E); auto.
  - intros a' u s t US D' A B. destruct (PU u US) as (P1 & P2 & P3). split; [now apply adistinct_detachable|].
    destruct US as (U1 & U2 & U3).
    assert (MU : a_map a (l_index u) = Some (l_source u, l_target u)).
    { destruct u as [j s' t']. now apply (ob_link cf _ SL _ OK _ _ _ _ _ K). }
    split.
    + intros ->. destruct B as [B|B]; [|congruence].
      assert (S0 : l_source u = 0) by (apply (VI (l_index u)); rewrite B; exact MU).
      destruct U3 as [U3|U3]; congruence.
    + intros [X|X]; exfalso; [destruct A|destruct B]; congruence.
  - destruct (half_and_delete cf CF _ SL _ OK) with (st := st) (st1 := st1) (a1 := a1) (old := old) (new := new) as (st2 & K2 & E2 & NL & M2); auto.
    { intros b i B. now apply sh_del_distinct. }
    exists st1. split; [apply K1|]. split; auto. split; auto. split; [|split].
    + intros x X L. apply M. now apply half_keeps_double.
    + now apply half_left.
    + exists st2. split; [apply K2|]. auto.
Qed.

(** ** Examples *)
(** 1: 2->2, 3: 1->1, 4: 3->1, and 2 and 5 empty. *)
Definition ex5h : list cmd := [Cr; Cr; Cr; Cr; Cr; Up 1 2 2; Up 3 1 1; Up 4 3 1].
Lemma ex5h_top x s t : is_link ex_U (ex_st ex5h) x s t -> 1 <= x <= 5.
Proof.
  destruct (ex_reach ex5h) as (d & HH & K); [vm_compute; reflexivity..|].
  intros L. assert (LK : linked ex_U (ex_st ex5h) x) by (eexists; eauto).
  apply (ob_top ex_cf _ ex_U _ (e_ok _ _ _ ex_env) _ _ K) in LK. vm_compute (a_top _) in LK. exact LK.
Qed.
Lemma ex5hs_top x s t : is_link ex_S (ex_sst ex5h) x s t -> 1 <= x <= 5.
Proof.
  destruct (ex_sreach ex5h) as (d & HH & K); [vm_compute; reflexivity..|].
  intros L. assert (LK : linked ex_S (ex_sst ex5h) x) by (eexists; eauto).
  apply (ob_top ex_cf _ ex_S _ (f_ok _ _ _ ex_env) _ _ K) in LK. vm_compute (a_top _) in LK. exact LK.
Qed.
Lemma L_C18_halves_nonvacuous : exists st d st' st2, u_hist ex_cf ref_tree_ops ref_list_ops st d /\
  distinct_pairs ex_U st /\ linked ex_U st 1 /\ is_link ex_U st 3 1 1 /\ no_cross ex_U st 1 5 /\
  (forall i j s t, half_moved ex_U st 1 5 i s t -> half_moved ex_U st 1 5 j s t -> (s, t) <> (0, 0) -> i = j) /\
  d_rebase ex_cf ex_U 1 5 st = Val (st', Ok 5) /\ is_link ex_U st' 3 1 5 /\ is_link ex_U st' 4 3 5 /\
  d_rebase_and_delete ex_cf ex_U 1 5 st = Val (st2, Ok 0) /\ no_link ex_U st2 1 /\ is_link ex_U st2 3 1 5.
Proof.
  destruct (ex_reach ex5h) as (d & HH & K); [vm_compute; reflexivity..|]. exists (ex_st ex5h), d.
  exists (match d_rebase ex_cf ex_U 1 5 (ex_st ex5h) with Val (s, _) => s | _ => ex_start end).
  exists (match d_rebase_and_delete ex_cf ex_U 1 5 (ex_st ex5h) with Val (s, _) => s | _ => ex_start end).
  sp. split; [apply ex_distinct; vm_compute; reflexivity|].
  split; [exists 2, 2; vm_compute; reflexivity|]. split; [vm_compute; reflexivity|].
  split; [|split; [|conj; vm_compute; reflexivity]].
  - intros x y _ _. split; intros L; pose proof (ex5h_top _ _ _ L) as T; each_index T; vm_compute in L; discriminate.
  - intros i j s t (s1 & t1 & L1 & E1) (s2 & t2 & L2 & E2) NZ.
    pose proof (ex5h_top _ _ _ L1) as T1. pose proof (ex5h_top _ _ _ L2) as T2. rewrite E1 in E2, NZ.
    each_index T1; each_index T2; try reflexivity; exfalso;
      vm_compute in L1, L2; injection L1 as <- <-; injection L2 as <- <-; vm_compute in E2; try discriminate;
      apply NZ; reflexivity.
Qed.
Lemma L_C57_halves_nonvacuous : exists st d st' st2, s_hist ex_cf ref_tree_ops ref_list_ops st d /\
  distinct_pairs ex_S st /\ linked ex_S st 1 /\ is_link ex_S st 3 1 1 /\ plain_users ex_S st 1 5 /\ no_cross ex_S st 1 5 /\
  (forall i j s t, half_moved ex_S st 1 5 i s t -> half_moved ex_S st 1 5 j s t -> (s, t) <> (0, 0) -> i = j) /\
  d_rebase ex_cf ex_S 1 5 st = Val (st', Ok 5) /\ is_link ex_S st' 3 1 5 /\ is_link ex_S st' 4 3 5 /\
  d_rebase_and_delete ex_cf ex_S 1 5 st = Val (st2, Ok 0) /\ no_link ex_S st2 1 /\ is_link ex_S st2 3 1 5.
Proof.
  destruct (ex_sreach ex5h) as (d & HH & K); [vm_compute; reflexivity..|]. exists (ex_sst ex5h), d.
  exists (match d_rebase ex_cf ex_S 1 5 (ex_sst ex5h) with Val (s, _) => s | _ => ex_sstart end).
  exists (match d_rebase_and_delete ex_cf ex_S 1 5 (ex_sst ex5h) with Val (s, _) => s | _ => ex_sstart end).
  sp. split; [apply ex_sdistinct; vm_compute; reflexivity|].
  split; [exists 2, 2; vm_compute; reflexivity|]. split; [vm_compute; reflexivity|].
  split; [|split; [|split; [|conj; vm_compute; reflexivity]]].
  - intros [x s t] (L & NX & SE). cbn [l_index l_source l_target] in *. pose proof (ex5hs_top _ _ _ L) as T.
    each_index T; try contradiction; vm_compute in L; injection L as <- <-; lia.
  - intros x y _ _. split; intros L; pose proof (ex5hs_top _ _ _ L) as T; each_index T; vm_compute in L; discriminate.
  - intros i j s t (s1 & t1 & L1 & E1) (s2 & t2 & L2 & E2) NZ.
    pose proof (ex5hs_top _ _ _ L1) as T1. pose proof (ex5hs_top _ _ _ L2) as T2. rewrite E1 in E2, NZ.
    each_index T1; each_index T2; try reflexivity; exfalso;
      vm_compute in L1, L2; injection L1 as <- <-; injection L2 as <- <-; vm_compute in E2; try discriminate;
      apply NZ; reflexivity.
Qed.
