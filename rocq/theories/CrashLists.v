(** Stopping inside an operation of the free list of either store, after any number of accesses
    of the crate's algorithm through the methods of the list (C79). *)
From Coq Require Import NArith List Bool Lia.
From Verif Require Import Base Trees Lists TreeInv Spec Iface UnitModel UnitInv UnitOps UnitLinks LinkModel SplitModel Forest
  SplitInv SplitReads SplitOps SplitWrites SplitLinks Doublets DoubletsOK Obs Hist Claims TreeImpl UnitHist SplitHist
  Layout Accessors CrashInside CrashSteps.
From Verif Require Crash CrashWrites CrashClaims SplitCrash SplitCrashClaims.
Import ListNotations.
Open Scope N_scope.

(** The first [n] accesses of a program over the methods of the list. *)
Fixpoint lcut {A} (n : nat) (p : lprog A) : lprog unit :=
  match n with
  | O => LDone (Val tt)
  | S n' =>
      match p with
      | LDone o => LDone (Val tt)
      | GetFirst k => GetFirst (fun v => lcut n' (k v))
      | GetLast k => GetLast (fun v => lcut n' (k v))
      | GetCount k => GetCount (fun v => lcut n' (k v))
      | SetFirst v k => SetFirst v (lcut n' k)
      | SetLast v k => SetLast v (lcut n' k)
      | SetCount v k => SetCount v (lcut n' k)
      | GetPrev e k => GetPrev e (fun v => lcut n' (k v))
      | GetNext e k => GetNext e (fun v => lcut n' (k v))
      | SetPrev e v k => SetPrev e v (lcut n' k)
      | SetNext e v k => SetNext e v (lcut n' k)
      end
  end.

(** A list, with the free elements [l], as it is at some moment: first is free, or the element
    [x] the operation is about, or none; only elements of the list and [x] have been written;
    every free element but [x] has a previous element. *)
Definition in_order (d : N -> N * N) (l : list N) (x : N) (h' : lhdr) (d' : N -> N * N) : Prop :=
  (lfirst h' = 0 \/ lfirst h' = x \/ In (lfirst h') l) /\
  (forall y, y <> x -> ~ In y l -> d' y = d y) /\
  (forall y, In y l -> y <> x -> fst (d' y) <> 0).
(** [q] takes [x] off the list or puts it on it, keeps the list in order all the time and writes
    no number of elements but the new one. *)
Definition list_op (len : N) (h : lhdr) (d : N -> N * N) (l : list N) (x : N) (q : lprog unit) : Prop :=
  lrep h d l /\ x <> 0 /\
  exists hz dz, on_list len q h d = Val (tt, hz, dz) /\
    ((In x l /\ lrep hz dz (lremove x l)) \/ (~ In x l /\ lrep hz dz (x :: l))) /\
    forall n h' d', on_list len (lcut n q) h d = Val (tt, h', d') ->
      in_order d l x h' d' /\ (lcount h' = lcount h \/ lcount h' = lcount hz).

Definition u_in_list (q : lprog unit) (n : nat) (st sn : ust) : Prop :=
  exists m, list_on_memory ul_acc (lcut n q) (u_mem st) = Val (tt, m) /\ same_mem m (u_mem sn).
Definition s_in_list (q : lprog unit) (n : nat) (st sn : sst) : Prop :=
  exists m, list_on_memory sl_acc (lcut n q) (s_mem st) = Val (tt, m) /\ same_mem m (s_mem sn).

Lemma lcut_val len A (p : lprog A) : forall n h d r, on_list len p h d = Val r ->
  exists h' d', on_list len (lcut n p) h d = Val (tt, h', d').
Proof.
  assert (NV : forall B C (n : N) (x : out B) (y : out C) r, node len n x = Val r -> x = Val r /\ node len n y = y).
  { intros B C n x y r. unfold node. destruct (n =? 0); [discriminate|]. destruct (n <? len); [auto|discriminate]. }
  intros n. revert p. induction n as [|n IH]; intros p h d r E; [cbn; eauto|].
  destruct p as [o|k|k|k|v k|v k|v k|e k|e k|e v k|e v k]; cbn [lcut on_list] in *; [cbn [obind]; eauto|..].
  1-6: eapply IH; exact E.
  all: destruct (NV _ unit _ _ (Val tt) _ E) as [E' _]; destruct (IH _ _ _ _ E') as (h' & d' & EC); exists h', d'; rewrite <- EC; eapply NV; exact E.
Qed.

(** * What is read afterwards *)
Lemma u_opened cf m s : u_open cf m = Val (Ok s) ->
  u_len s = N.max (c_step cf) (h_alloc m) /\ 0 < u_len s /\ h_alloc s = h_alloc m /\ (forall j, j <> 0 -> u_data s j = u_data m j) /\ u_src s = u_src m.
Proof.
  unfold u_open, u_alloc_mem. destruct (u_orc m 0%nat _); [|discriminate]. unfold u_header. cbn [u_len u_orc].
  destruct (0 <? c_page cf); cbn [obind]; [|discriminate].
  change (h_alloc (mkU (c_page cf) (fun k => u_orc m (S k)) (u_data m) (u_src m) (u_tgt m))) with (h_alloc m).
  destruct (u_orc m 1%nat _); [|discriminate]. cbn [u_len].
  destruct (N.ltb_spec 0 (N.max (c_step cf) (h_alloc m))) as [L|]; cbn [obind]; [|discriminate].
  destruct (csub _ 1) as [r1| | |]; cbn [obind]; try discriminate. destruct (ctry (c_tmax cf) r1) as [r| | |]; cbn [obind]; try discriminate.
  intros E. injection E as <-. split; [reflexivity|]. split; [exact L|]. split; [reflexivity|]. split; [|reflexivity].
  intros j J. cbn [set_reserved set_data u_data]. now rewrite upd_other.
Qed.
Lemma s_opened cf m s : s_open cf m = Val (Ok s) ->
  s_ilen s = s_capacity cf (sh_alloc m) /\ s_dlen s = s_capacity cf (sh_alloc m) /\ s_dcap s = s_capacity cf (sh_alloc m) /\ 0 < s_ilen s /\
  sh_alloc s = sh_alloc m /\ sh_first s = sh_first m /\ sh_free s = sh_free m /\ (forall j, s_data s j = s_data m j) /\ s_it s = s_it m.
Proof.
  unfold s_open, s_alloc_mem. destruct (s_orc m 0%nat _ _); cbn [negb]; try discriminate. unfold s_header at 1. cbn [s_ilen].
  destruct (0 <? c_page cf); [|intros E; discriminate E]. cbn [obind s_dcap s_ilen s_orc].
  change (sh_alloc (mkS _ _ _ _ _ _ _ _ _)) with (sh_alloc m). fold (s_capacity cf (sh_alloc m)).
  destruct (s_orc m 1%nat _ _); cbn [negb]; try (intros E; discriminate E). unfold s_header. cbn [s_ilen s_dcap].
  destruct (N.ltb_spec 0 (s_capacity cf (sh_alloc m))) as [L|]; cbn [obind]; [|intros E; discriminate E].
  destruct (csub _ 1) as [r1| | |]; cbn [obind]; try (intros E; discriminate E).
  destruct (ctry (c_tmax cf) r1) as [r| | |]; cbn [obind]; try (intros E; discriminate E).
  intros E. injection E as <-. do 3 (split; [reflexivity|]). split; [exact L|]. repeat split.
Qed.

(** The memory after [n] accesses is the memory before with a list in order. *)
Lemma u_in_list_cols q n st sn l x : 0 < u_len st -> list_op (u_len st) (u_lhdr st) (u_data st) l x q -> u_in_list q n st sn ->
  exists h' d', on_list (u_len st) (lcut n q) (u_lhdr st) (u_data st) = Val (tt, h', d') /\
    (forall j, u_data sn j = d' j) /\ (forall j, j <> 0 -> u_src sn j = u_src st j) /\ h_first sn = lfirst h' /\ h_free sn = lcount h'.
Proof.
  intros L0 (R & X0 & hz & dz & EN & FI & CU) (m & EM & SM). destruct (lcut_val _ _ _ n _ _ _ EN) as (h' & d' & E).
  exists h', d'. split; [exact E|].
  pose proof (ul_simulates st unit (lcut n q) L0) as S. rewrite E in S. cbn [lagree] in S. destruct S as (m' & EM' & SM').
  rewrite EM in EM'. injection EM' as <-.
  destruct (mem_cols sn (set_lhdr st h' d')) as (_ & CO); [eapply same_trans; [apply same_sym; exact SM|exact SM']|].
  cbn [set_lhdr u_data u_src u_tgt] in CO. split; [intros j; apply CO|]. split.
  - intros j J. destruct (CO j) as (_ & -> & _). now rewrite upd_other.
  - unfold h_first, h_free. destruct (CO 0) as (_ & -> & _). rewrite upd_same. split; reflexivity.
Qed.
Lemma s_in_list_cols q n st sn l x : 0 < s_ilen st -> list_op (s_dlen st) (s_lhdr st) (s_data st) l x q -> s_in_list q n st sn ->
  exists h' d', on_list (s_dlen st) (lcut n q) (s_lhdr st) (s_data st) = Val (tt, h', d') /\
    (forall j, s_data sn j = d' j) /\ (forall j, j <> 0 -> s_it sn j = s_it st j) /\ sh_alloc sn = sh_alloc st /\
    sh_first sn = lfirst h' /\ sh_free sn = lcount h'.
Proof.
  intros L0 (R & X0 & hz & dz & EN & FI & CU) (m & EM & SM). destruct (lcut_val _ _ _ n _ _ _ EN) as (h' & d' & E).
  exists h', d'. split; [exact E|].
  pose proof (sl_simulates st unit (lcut n q) L0) as S. rewrite E in S. cbn [lagree] in S. destruct S as (m' & EM' & SM').
  rewrite EM in EM'. injection EM' as <-.
  destruct (s_mem_cols sn (s_set_lhdr st h' d')) as (C1 & C2 & C3 & C4 & C5); [eapply same_trans; [apply same_sym; exact SM|exact SM']|].
  cbn [s_set_lhdr s_data s_rs s_is s_it] in *. split; [exact C1|]. split; [intros j J; rewrite C5; now rewrite upd_other|].
  unfold sh_alloc, sh_first, sh_free. rewrite C2, C3, upd_same. repeat split.
Qed.

(** The links of a map up to [top], and how many there are. *)
Definition shown (m : N -> option (N * N)) (top : N) : list link :=
  flat_map (fun i => match m i with Some (s, t) => [mkLink i s t] | None => [] end) (range1 top).
Lemma shown_ext m m' top : (forall j, m j = m' j) -> shown m top = shown m' top.
Proof. intros E. unfold shown. apply flat_map_ext. intros j. now rewrite E. Qed.
Lemma shown_one m x o top : 1 <= x <= top ->
  length (shown (upd m x o) top) = (length (shown (upd m x None) top) + match o with Some _ => 1 | None => 0 end)%nat.
Proof.
  intros X. destruct o as [p|]; [|lia]. pose proof (len_alinks_gen (upd m x (Some p)) (upd m x None) x (range1 top)) as G. cbv zeta in G.
  unfold shown. rewrite G; [|apply nodup_range1|intros j J; now rewrite !upd_other by auto|rewrite upd_same; discriminate|apply upd_same].
  destruct (in_dec N.eq_dec x (range1 top)) as [|K]; [reflexivity|]. exfalso. apply K. now apply in_range1.
Qed.
Lemma seg_unique d : forall l l' p p' n n', length l = length l' -> hd 0 l = hd 0 l' -> seg d p l n -> seg d p' l' n' -> l = l'.
Proof.
  induction l as [|x l IH]; intros [|y l'] p p' n n' LE HD S S'; try discriminate; [reflexivity|].
  cbn [hd] in HD. subst y. destruct S as [E S], S' as [E' S']. f_equal. injection LE as LE.
  apply (IH l' x x n n' LE); auto. rewrite E in E'. injection E' as _ HD. destruct l as [|a l], l' as [|b l']; try discriminate LE; [reflexivity|exact HD].
Qed.
Lemma lrep_unique h d l l' : lrep h d l -> lrep h d l' -> l = l'.
Proof.
  intros (_ & _ & F & _ & C & S) (_ & _ & F' & _ & C' & S'). eapply seg_unique; [|congruence|exact S|exact S']. lia.
Qed.

Lemma lremove_length x l : NoDup l -> In x l -> (length (lremove x l) + 1 = length l)%nat.
Proof.
  intros ND I. destruct (in_split _ _ I) as (l1 & l2 & ->). apply NoDup_remove in ND as [ND NI]. rewrite in_app_iff in NI.
  rewrite lremove_app by tauto. rewrite !app_length. cbn [length]. lia.
Qed.

Section SeenUnit.
  Variables (cf : cfg) (tops : tree_ops) (lops : list_ops).
  Hypothesis ENV : unit_env cf tops lops.
  Let CF : cfg_ok cf := e_cf cf tops lops ENV.

  Lemma u_list_seen st a l x q n sn orc s2 : urep cf st a -> a_top a < c_step cf ->
    list_op (u_len st) (u_lhdr st) (u_data st) l x q -> In x (a_free a) \/ a_map a x = Some (0, 0) ->
    u_in_list q n st sn -> u_open cf (u_persist sn orc) = Val (Ok s2) ->
    exists o c, (forall j, u_get_link cf s2 j = Val (olink j (upd (a_map a) x o j))) /\
      (forall H (h : rhandler H) z, u_each cf h [] s2 z = Val (run_handler h (shown (upd (a_map a) x o) (a_top a)) z)) /\
      u_count cf s2 [] = Val c /\
      let K := N.of_nat (length (shown (upd (a_map a) x None) (a_top a))) in c = K \/ c = K + 1.
  Proof.
    intros R TL OP WH IN E2. pose proof OP as (LR & X0 & hz & dz & EN & FI & CU).
    pose proof (lrep_unique _ _ _ _ LR (ur_list _ _ _ R)) as ->. pose proof (ur_len _ _ _ R) as UL.
    destruct (u_in_list_cols q n st sn _ x ltac:(lia) OP IN) as (h' & d' & E & DA & SR & HF & HC).
    destruct (CU _ _ _ E) as ((F1 & F2 & F3) & CO).
    destruct (u_opened _ _ _ E2) as (LN & L0 & AL & DD & SS). change (h_alloc (u_persist sn orc)) with (h_alloc sn) in LN, AL.
    cbn [u_persist u_data u_src] in DD, SS.
    assert (NZ : ~ In 0 (a_free a)) by (intros K; apply (ur_free _ _ _ R) in K; lia).
    assert (XR : 1 <= x <= a_top a) by (destruct WH as [K|K]; [now apply (ur_free _ _ _ R)|assert (Q : a_map a x <> None) by congruence; apply (ur_dom _ _ _ R) in Q; tauto]).
    assert (HA : h_alloc sn = a_top a) by (unfold h_alloc; rewrite DA, F2 by auto; exact (ur_alloc _ _ _ R)).
    rewrite HA in LN, AL.
    assert (F1' : h_first s2 = lfirst h') by (unfold h_first; rewrite SS; exact HF).
    assert (UH : u_header s2 = Val tt) by (unfold u_header; destruct (N.ltb_spec 0 (u_len s2)); [auto|lia]).
    assert (G : forall j, j <> x -> u_get_link cf s2 j = Val (olink j (a_map a j))).
    { intros j JX. unfold u_get_link, u_exists, u_is_unused. rewrite UH. cbn [obind]. rewrite (ok_istart _ CF), AL, F1'.
      destruct (N.leb_spec 1 j) as [J1|J1], (N.leb_spec j (a_top a)) as [J2|J2]; cbn [andb obind].
      2-4: (destruct (a_map a j) eqn:EM; [|reflexivity]; exfalso; assert (Q : a_map a j <> None) by congruence; apply (ur_dom _ _ _ R) in Q; lia).
      destruct (N.eqb_spec (lfirst h') j) as [EJ|EJ]; cbn [negb obind].
      - destruct (a_map a j) eqn:EM; [exfalso|reflexivity]. assert (Q : a_map a j <> None) by congruence. apply (ur_dom _ _ _ R) in Q.
        rewrite EJ in F1. destruct F1 as [|[|]]; [lia|contradiction|tauto].
      - rewrite !rdu_ok by lia. cbn [obind]. rewrite SS, SR by lia. rewrite DD, DA by lia.
        destruct (a_map a j) as [[s t]|] eqn:EM.
        + assert (Q : a_map a j <> None) by congruence. apply (ur_dom _ _ _ R) in Q.
          rewrite F2 by tauto. rewrite (ur_data _ _ _ R _ _ EM). cbn [fst snd]. destruct (N.eqb_spec s 0) as [->|S0]; cbn [negb].
          * rewrite andb_false_r. reflexivity.
          * assert (Z : nz (u_src st j) <> 0) by (apply (tree_inv_size _ _ _ _ _ (ur_src _ _ _ R)); exists s, t; auto).
            destruct (N.eqb_spec (nz (u_src st j)) 0); [contradiction|]. reflexivity.
        + assert (IF : In j (a_free a)).
          { destruct (in_dec N.eq_dec j (a_free a)); auto. exfalso.
            assert (Q : a_map a j <> None) by (apply (ur_dom _ _ _ R); auto). congruence. }
          pose proof (F3 _ IF JX). destruct (N.eqb_spec (fst (d' j)) 0); [contradiction|].
          rewrite (ur_src0 _ _ _ R j); [reflexivity|lia|]. intros Q. apply psrc_dom in Q. congruence. }
    assert (GX : exists o, u_get_link cf s2 x = Val (olink x o)).
    { unfold u_get_link, u_exists, u_is_unused. rewrite UH. cbn [obind]. rewrite (ok_istart _ CF), AL, F1'.
      destruct (N.leb_spec 1 x); [|lia]. destruct (N.leb_spec x (a_top a)); [|lia]. cbn [andb].
      destruct (negb (lfirst h' =? x)); cbn [obind]; [|exists None; reflexivity]. rewrite !rdu_ok by lia. cbn [obind].
      destruct (negb _); cbn [obind]; [|exists None; reflexivity]. exists (Some (u_data s2 x)). destruct (u_data s2 x). reflexivity. }
    destruct GX as [o GX]. exists o.
    assert (GA : forall j, u_get_link cf s2 j = Val (olink j (upd (a_map a) x o j))).
    { intros j. destruct (N.eq_dec j x) as [->|J]; [rewrite upd_same; exact GX|rewrite upd_other by auto; now apply G]. }
    assert (TOT : N.of_nat (length (alinks a)) + N.of_nat (length (a_free a)) = a_top a).
    { pose proof (u_get_total_ok cf st a R) as T. unfold u_get_total in T. rewrite (u_header_ok _ _ _ R) in T. cbn [obind] in T.
      rewrite (ur_alloc _ _ _ R) in T. unfold csub in T. change (h_free st) with (lcount (u_lhdr st)) in T.
      destruct (ur_list _ _ _ R) as (_ & _ & _ & _ & LC & _). rewrite LC in T.
      destruct (N.leb_spec (N.of_nat (length (a_free a))) (a_top a)); [|discriminate]. injection T as T. lia. }
    set (K := N.of_nat (length (shown (upd (a_map a) x None) (a_top a)))).
    assert (LK : N.of_nat (length (alinks a)) = K + (if in_dec N.eq_dec x (a_free a) then 0 else 1)).
    { unfold K. change (alinks a) with (shown (a_map a) (a_top a)). destruct (in_dec N.eq_dec x (a_free a)) as [I|I].
      - rewrite (shown_ext (a_map a) (upd (a_map a) x None)); [lia|]. intros j. unfold upd. destruct (N.eqb_spec j x) as [->|]; [|reflexivity].
        destruct (a_map a x) eqn:EM; [exfalso|reflexivity]. assert (Q : a_map a x <> None) by congruence. apply (ur_dom _ _ _ R) in Q. tauto.
      - destruct WH as [|M]; [contradiction|]. rewrite (shown_ext (a_map a) (upd (a_map a) x (Some (0, 0)))).
        + rewrite shown_one by auto. lia.
        + intros j. unfold upd. destruct (N.eqb_spec j x) as [->|]; auto. }
    exists (a_top a - h_free s2). split; [exact GA|]. split; [|].
    - intros H h z. unfold u_each, u_each_all. rewrite UH. cbn [obind]. rewrite AL. unfold shown.
      generalize (range1 (a_top a)). intros L. revert z. induction L as [|j L IH]; intros z; [reflexivity|].
      cbn [u_each_idx flat_map]. rewrite GA. cbn [obind].
      destruct (upd (a_map a) x o j) as [[y w]|]; cbn [olink app run_handler]; [|apply IH].
      destruct (h z (mkLink j y w)) as [z' []]; [apply IH|reflexivity].
    - assert (HFR : h_free s2 = lcount h') by (unfold h_free; rewrite SS; exact HC).
      destruct LR as (ND & _ & _ & _ & LC & _).
      assert (LZ : lcount hz = N.of_nat (length (a_free a)) + 1 /\ ~ In x (a_free a) \/ lcount hz + 1 = N.of_nat (length (a_free a)) /\ In x (a_free a)).
      { destruct FI as [[I (_ & _ & _ & _ & C & _)]|[I (_ & _ & _ & _ & C & _)]]; rewrite C; [right|left].
        - split; auto. pose proof (lremove_length x (a_free a) ND I). lia.
        - split; auto. cbn [length]. lia. }
      rewrite HFR. unfold u_count, u_get_total. rewrite UH. cbn [obind]. rewrite AL, HFR.
      cbv zeta. destruct (in_dec N.eq_dec x (a_free a)) as [I|I].
      + rewrite csub_ok by (destruct LZ as [[? ?]|[? ?]]; [contradiction|]; destruct CO; lia). split; [reflexivity|].
        destruct LZ as [[? ?]|[LZ _]]; [contradiction|]. destruct CO as [->| ->]; lia.
      + destruct LZ as [[LZ _]|[? ?]]; [|contradiction].
        rewrite csub_ok by (destruct CO; lia). split; [reflexivity|]. destruct CO as [->| ->]; lia.
  Qed.
End SeenUnit.

Section SeenSplit.
  Variables (cf : cfg) (tops : tree_ops) (lops : list_ops).
  Hypothesis ENV : unit_env cf tops lops.
  Let CF : cfg_ok cf := proj1 ENV.

  Lemma s_list_seen st a sP tP l x q n sn orc s2 : smem cf st a sP tP -> all_placed a tP -> a_top a < s_capacity cf (a_top a) ->
    list_op (s_dlen st) (s_lhdr st) (s_data st) l x q -> In x (a_free a) \/ a_map a x = Some (0, 0) ->
    s_in_list q n st sn -> s_open cf (s_persist sn orc) = Val (Ok s2) ->
    exists o c, (forall j, s_get_link cf s2 j = Val (olink j (upd (a_map a) x o j))) /\
      (forall H (h : rhandler H) z, s_each cf h [] s2 z = Val (run_handler h (shown (upd (a_map a) x o) (a_top a)) z)) /\
      s_count cf s2 [] = Val c /\
      let K := N.of_nat (length (shown (upd (a_map a) x None) (a_top a))) in c = K \/ c = K + 1.
  Proof.
    intros R V TL OP WH IN E2. pose proof OP as (LR & X0 & hz & dz & EN & FI & CU).
    pose proof (lrep_unique _ _ _ _ LR (sm_list _ _ _ _ _ R)) as ->. pose proof (sm_len _ _ _ _ _ R) as UL.
    destruct (s_in_list_cols q n st sn _ x ltac:(lia) OP IN) as (h' & d' & E & DA & SR & HA & HF & HC).
    destruct (CU _ _ _ E) as ((F1 & F2 & F3) & CO).
    destruct (s_opened _ _ _ E2) as (LI & LD & LC' & L0 & AL & FE & FR & DD & SS).
    change (sh_alloc (s_persist sn orc)) with (sh_alloc sn) in LI, LD, LC', AL. change (sh_first (s_persist sn orc)) with (sh_first sn) in FE.
    change (sh_free (s_persist sn orc)) with (sh_free sn) in FR. cbn [s_persist s_data s_it] in DD, SS.
    rewrite HA, (sm_alloc _ _ _ _ _ R) in *. rewrite HF in FE. rewrite HC in FR.
    assert (XR : 1 <= x <= a_top a) by (destruct WH as [K|K]; [now apply (sm_free _ _ _ _ _ R)|assert (Q : a_map a x <> None) by congruence; apply (sm_dom _ _ _ _ _ R) in Q; tauto]).
    assert (UH : s_header s2 = Val tt) by (unfold s_header; destruct (N.ltb_spec 0 (s_ilen s2)); [auto|lia]).
    assert (VW : s_view s2 = Val tt) by (unfold s_view; rewrite LD, LC', N.eqb_refl; reflexivity).
    assert (RDS : forall j, 1 <= j <= a_top a -> s_get_data s2 j = Val (s_data s2 j) /\ s_get_data_unchecked s2 j = Val (s_data s2 j) /\
      rd (s_ilen s2) (s_it s2) j = Val (s_it s2 j)).
    { intros j J. unfold s_get_data, s_get_data_unchecked. rewrite VW. cbn [obind]. rewrite !rd_ok, rdu_ok by lia. auto. }
    assert (G : forall j, j <> x -> s_get_link cf s2 j = Val (olink j (a_map a j))).
    { intros j JX. unfold s_get_link, s_exists, s_is_unused. rewrite UH. cbn [obind]. rewrite (ok_istart _ CF), AL, FE.
      destruct (N.leb_spec 1 j) as [J1|J1], (N.leb_spec j (a_top a)) as [J2|J2]; cbn [andb obind].
      2-4: (destruct (a_map a j) eqn:EM; [|reflexivity]; exfalso; assert (Q : a_map a j <> None) by congruence; apply (sm_dom _ _ _ _ _ R) in Q; lia).
      destruct (N.eqb_spec (lfirst h') j) as [EJ|EJ]; cbn [negb obind].
      - destruct (a_map a j) eqn:EM; [exfalso|reflexivity]. assert (Q : a_map a j <> None) by congruence. apply (sm_dom _ _ _ _ _ R) in Q.
        rewrite EJ in F1. destruct F1 as [|[|]]; [lia|contradiction|tauto].
      - destruct (RDS j (conj J1 J2)) as (-> & -> & ->). cbn [obind]. rewrite SS, SR by lia. rewrite DD, DA.
        destruct (a_map a j) as [[s t]|] eqn:EM.
        + assert (Q : a_map a j <> None) by congruence. apply (sm_dom _ _ _ _ _ R) in Q.
          rewrite F2 by tauto. rewrite (sm_data _ _ _ _ _ R _ _ EM). cbn [fst snd]. destruct (N.eqb_spec s 0) as [->|S0]; cbn [negb].
          * rewrite andb_false_r. reflexivity.
          * assert (Z : nz (s_it st j) <> 0).
            { destruct (V _ _ _ EM) as [|TP]; [contradiction|]. destruct (tP j) as [| |v] eqn:PJ; [contradiction|..].
              - apply (tree_inv_size _ _ _ _ _ (fo_ext _ _ _ _ _ _ (sm_tgt _ _ _ _ _ R))). exact PJ.
              - assert (V0 : v <> 0) by (intros ->; exact (fo_nz _ _ _ _ _ _ (sm_tgt _ _ _ _ _ R) j PJ)).
                apply (tree_inv_size _ _ _ _ _ (fo_int _ _ _ _ _ _ (sm_tgt _ _ _ _ _ R) v V0)). exact PJ. }
            destruct (N.eqb_spec (nz (s_it st j)) 0); [contradiction|]. reflexivity.
        + assert (IF : In j (a_free a)).
          { destruct (in_dec N.eq_dec j (a_free a)); auto. exfalso.
            assert (Q : a_map a j <> None) by (apply (sm_dom _ _ _ _ _ R); auto). congruence. }
          pose proof (F3 _ IF JX). destruct (N.eqb_spec (fst (d' j)) 0); [contradiction|].
          rewrite (fo_out _ _ _ _ _ _ (sm_tgt _ _ _ _ _ R) j); [reflexivity|lia|].
          pose proof (sm_tp _ _ _ _ _ R j) as TP. destruct (tP j) as [| |v]; [reflexivity|..].
          * apply ptgt_dom in TP. congruence.
          * destruct TP as [[s TP] _]. congruence. }
    assert (GX : exists o, s_get_link cf s2 x = Val (olink x o)).
    { unfold s_get_link, s_exists, s_is_unused. rewrite UH. cbn [obind]. rewrite (ok_istart _ CF), AL, FE.
      destruct (N.leb_spec 1 x); [|lia]. destruct (N.leb_spec x (a_top a)); [|lia]. cbn [andb].
      destruct (negb (lfirst h' =? x)); cbn [obind]; [|exists None; reflexivity]. destruct (RDS x XR) as (-> & -> & ->). cbn [obind].
      destruct (negb _); cbn [obind]; [|exists None; reflexivity]. exists (Some (s_data s2 x)). destruct (s_data s2 x). reflexivity. }
    destruct GX as [o GX]. exists o.
    assert (GA : forall j, s_get_link cf s2 j = Val (olink j (upd (a_map a) x o j))).
    { intros j. destruct (N.eq_dec j x) as [->|J]; [rewrite upd_same; exact GX|rewrite upd_other by auto; now apply G]. }
    assert (TOT : N.of_nat (length (alinks a)) + N.of_nat (length (a_free a)) = a_top a).
    { pose proof (SplitCrash.count_ok cf st a sP tP R) as T. unfold s_count, s_total in T. rewrite (s_header_ok _ _ _ _ _ R) in T. cbn [obind] in T.
      rewrite (sm_alloc _ _ _ _ _ R) in T. unfold csub in T. change (sh_free st) with (lcount (s_lhdr st)) in T.
      destruct (sm_list _ _ _ _ _ R) as (_ & _ & _ & _ & LC & _). rewrite LC in T.
      destruct (N.leb_spec (N.of_nat (length (a_free a))) (a_top a)); [|discriminate]. injection T as T. lia. }
    set (K := N.of_nat (length (shown (upd (a_map a) x None) (a_top a)))).
    assert (LK : N.of_nat (length (alinks a)) = K + (if in_dec N.eq_dec x (a_free a) then 0 else 1)).
    { unfold K. change (alinks a) with (shown (a_map a) (a_top a)). destruct (in_dec N.eq_dec x (a_free a)) as [I|I].
      - rewrite (shown_ext (a_map a) (upd (a_map a) x None)); [lia|]. intros j. unfold upd. destruct (N.eqb_spec j x) as [->|]; [|reflexivity].
        destruct (a_map a x) eqn:EM; [exfalso|reflexivity]. assert (Q : a_map a x <> None) by congruence. apply (sm_dom _ _ _ _ _ R) in Q. tauto.
      - destruct WH as [|M]; [contradiction|]. rewrite (shown_ext (a_map a) (upd (a_map a) x (Some (0, 0)))).
        + rewrite shown_one by auto. lia.
        + intros j. unfold upd. destruct (N.eqb_spec j x) as [->|]; auto. }
    exists (a_top a - sh_free s2). split; [exact GA|]. split.
    - intros H h z. unfold s_each, s_each_all. rewrite UH. cbn [obind]. rewrite AL. unfold shown.
      generalize (range1 (a_top a)). intros L. revert z. induction L as [|j L IH]; intros z; [reflexivity|].
      cbn [s_each_idx flat_map]. rewrite GA. cbn [obind].
      destruct (upd (a_map a) x o j) as [[y w]|]; cbn [olink app run_handler]; [|apply IH].
      destruct (h z (mkLink j y w)) as [z' []]; [apply IH|reflexivity].
    - destruct LR as (ND & _ & _ & _ & LC & _).
      assert (LZ : lcount hz = N.of_nat (length (a_free a)) + 1 /\ ~ In x (a_free a) \/ lcount hz + 1 = N.of_nat (length (a_free a)) /\ In x (a_free a)).
      { destruct FI as [[I (_ & _ & _ & _ & C & _)]|[I (_ & _ & _ & _ & C & _)]]; rewrite C; [right|left].
        - split; auto. pose proof (lremove_length x (a_free a) ND I). lia.
        - split; auto. cbn [length]. lia. }
      unfold s_count, s_total. rewrite UH. cbn [obind]. rewrite AL, FR.
      cbv zeta. destruct (in_dec N.eq_dec x (a_free a)) as [I|I].
      + rewrite csub_ok by (destruct LZ as [[? ?]|[? ?]]; [contradiction|]; destruct CO; lia). split; [reflexivity|].
        destruct LZ as [[? ?]|[LZ _]]; [contradiction|]. destruct CO as [->| ->]; lia.
      + destruct LZ as [[LZ _]|[? ?]]; [|contradiction].
        rewrite csub_ok by (destruct CO; lia). split; [reflexivity|]. destruct CO as [->| ->]; lia.
  Qed.
End SeenSplit.

(** * C79 *)
(** The calls of the free list of the single-memory store, made while [i] is created or deleted:
    taking the first free link off it (store.rs:457), putting the deleted link on it (534), taking
    the last link off it (545).  [x] is the link of the call, [st1] the memory before it. *)
Inductive u_list_call (cf : cfg) (tops : tree_ops) (lops : list_ops) (st : ust) : N -> N -> ust -> Prop :=
| Reuse : h_first st <> 0 -> u_list_call cf tops lops st (h_first st) (h_first st) st
| PutBack i os ot st1 : is_link (unit_links cf tops lops) st i os ot -> separable (unit_links cf tops lops) st i ->
    CrashWrites.delete_at tops lops st i os ot CrashWrites.Zeroed st1 -> i < h_alloc st1 -> u_list_call cf tops lops st i i st1
| TrimLast i os ot n st1 : is_link (unit_links cf tops lops) st i os ot -> separable (unit_links cf tops lops) st i ->
    CrashWrites.delete_at tops lops st i os ot (CrashWrites.Trimming n) st1 -> 0 < h_alloc st1 ->
    u_is_unused st1 (h_alloc st1) = Val true -> u_list_call cf tops lops st i (h_alloc st1) st1.
(** Of the split store: store.rs:725, 828, 840. *)
Inductive s_list_call (cf : cfg) (tops : tree_ops) (lops : list_ops) (st : sst) : N -> N -> sst -> Prop :=
| SReuse : sh_first st <> 0 -> s_list_call cf tops lops st (sh_first st) (sh_first st) st
| SPutBack i os ot st1 : is_link (split_links cf tops lops) st i os ot -> s_okd (split_links cf tops lops) st i ->
    SplitCrash.s_delete_at cf tops lops st i os ot (SplitCrash.Emptying 6) st1 -> i < sh_alloc st1 -> s_list_call cf tops lops st i i st1
| STrimLast i os ot n st1 : is_link (split_links cf tops lops) st i os ot -> s_okd (split_links cf tops lops) st i ->
    SplitCrash.s_delete_at cf tops lops st i os ot (SplitCrash.STrimming n) st1 -> 0 < sh_alloc st1 ->
    s_is_unused st1 (sh_alloc st1) = Val true -> s_list_call cf tops lops st i (sh_alloc st1) st1.

(** The states of the calls. *)
Lemma u_call_state cf tops lops st a i x st1 : unit_env cf tops lops -> uinv cf st a -> u_list_call cf tops lops st i x st1 ->
  exists a1, urep cf st1 a1 /\ a_top a1 <= a_top a /\ (In x (a_free a1) \/ a_map a1 x = Some (0, 0)) /\
    (forall j, j <> i -> j <> x -> a_map a1 j = a_map a j) /\ (i <> x -> a_map a1 i = None).
Proof.
  intros ENV K CALL. pose proof (e_ok _ _ _ ENV) as OK.
  destruct CALL as [F0|i os ot st1 L S DA LE|i os ot m st1 L S DA P0 UN].
  - exists a. destruct K as [R _]. split; [exact R|]. split; [lia|]. split; [|split; [auto|tauto]].
    left. destruct (ur_list _ _ _ R) as (_ & _ & HF & _). cbn [u_lhdr lfirst] in HF. rewrite HF in F0 |- *.
    destruct (a_free a); [contradiction F0; reflexivity|now left].
  - apply (ob_link cf _ _ _ OK _ _ _ _ _ K) in L. apply (ob_sep cf _ _ _ OK _ _ _ K) in S.
    destruct (CrashWrites.delete_at_urep cf tops lops ENV st a i os ot _ st1 K L S DA) as (a1 & R1 & LE1 & MI & MJ).
    exists a1. split; [exact R1|]. split; [exact LE1|]. split; [auto|]. split; [auto|tauto].
  - apply (ob_link cf _ _ _ OK _ _ _ _ _ K) in L. apply (ob_sep cf _ _ _ OK _ _ _ K) in S.
    destruct (CrashWrites.delete_at_urep cf tops lops ENV st a i os ot _ st1 K L S DA) as (a1 & R1 & LE1 & MI & MJ).
    exists a1. split; [exact R1|]. split; [exact LE1|]. destruct (CrashWrites.free_top cf _ _ R1 P0 UN) as (_ & HA & _ & FI). rewrite HA.
    split; [auto|]. split; auto.
Qed.
Lemma s_call_state cf tops lops st a i x st1 : unit_env cf tops lops -> srep cf st a -> s_list_call cf tops lops st i x st1 ->
  exists a1 sP tP, smem cf st1 a1 sP tP /\ all_placed a1 tP /\ a_top a1 <= a_top a /\ (In x (a_free a1) \/ a_map a1 x = Some (0, 0)) /\
    (forall j, j <> i -> j <> x -> a_map a1 j = a_map a j) /\ (i <> x -> a_map a1 i = None).
Proof.
  intros ENV K CALL. pose proof (f_ok _ _ _ ENV) as OK. pose proof K as [(R & W & VI) _]. pose proof (all_placed_tpl _ VI) as V.
  destruct CALL as [F0|i os ot st1 L S DA LE|i os ot m st1 L S DA P0 UN].
  - exists a, (spl a), (tpl a). split; [exact R|]. split; [exact V|]. split; [lia|]. split; [|split; [auto|tauto]].
    left. destruct (sm_list _ _ _ _ _ R) as (_ & _ & HF & _). cbn [s_lhdr lfirst] in HF. rewrite HF in F0 |- *.
    destruct (a_free a); [contradiction F0; reflexivity|now left].
  - apply (ob_link cf _ _ _ OK _ _ _ _ _ K) in L. assert (MN : a_map a i <> None) by congruence.
    apply (ob_okd cf tops lops ENV _ _ _ K MN) in S.
    destruct (SplitCrash.s_delete_at_seen cf tops lops ENV st a i os ot _ st1 (proj1 K) L S DA) as (a1 & sP & tP & R1 & LE1 & _ & MI & MJ & VP & _).
    exists a1, sP, tP. split; [exact R1|]. split; [apply VP; cbn; tauto|]. split; [exact LE1|]. split; [right; exact MI|]. split; [auto|tauto].
  - apply (ob_link cf _ _ _ OK _ _ _ _ _ K) in L. assert (MN : a_map a i <> None) by congruence.
    apply (ob_okd cf tops lops ENV _ _ _ K MN) in S.
    destruct (SplitCrash.s_delete_at_seen cf tops lops ENV st a i os ot _ st1 (proj1 K) L S DA) as (a1 & sP & tP & R1 & LE1 & VP & MI & MJ).
    exists a1, sP, tP. split; [exact R1|]. split; [exact VP|]. split; [exact LE1|].
    destruct (SplitCrash.s_free_top cf _ _ _ _ R1 VP P0 UN) as (_ & HA & _ & FI & _). rewrite HA. split; [auto|]. split; auto.
Qed.

(** After a stop inside such a call every other link is as before, a link deleted from the end is
    gone, and count and each differ by at most one. *)
Lemma L_C79_unit_partial cf tops lops st d i x st1 l q n sn orc st2 :
  let U := unit_links cf tops lops in
  unit_env cf tops lops -> u_hist cf tops lops st d -> (forall j, linked U st j -> j < c_step cf) ->
  u_list_call cf tops lops st i x st1 -> list_op (u_len st1) (u_lhdr st1) (u_data st1) l x q ->
  u_in_list q n st1 sn -> u_open cf (u_persist sn orc) = Val (Ok st2) ->
  (forall j, j <> i -> j <> x -> li_get U st2 j = li_get U st j) /\ (i <> x -> no_link U st2 i) /\
  exists k, (u_count cf st2 [] = Val k \/ u_count cf st2 [] = Val (k + 1)) /\
    (u_each cf (fun m _ => (m + 1, Continue)) [] st2 0 = Val (k, Continue) \/ u_each cf (fun m _ => (m + 1, Continue)) [] st2 0 = Val (k + 1, Continue)).
Proof.
  intros U ENV HH LT CALL OP IN E2. destruct (u_hist_inv cf tops lops ENV st d HH) as (a & K & D).
  pose proof (e_ok _ _ _ ENV) as OK. assert (W : awf a) by (eapply lo_wf; eauto).
  pose proof (CrashClaims.top_lt cf tops lops ENV _ _ K LT) as TL.
  destruct (u_call_state cf tops lops st a i x st1 ENV K CALL) as (a1 & R1 & LE & WH & MJ & MI).
  destruct (u_list_seen cf tops lops ENV st1 a1 l x q n sn orc st2 R1 ltac:(lia) OP WH IN E2) as (o & c & G & EA & CN & CK).
  split; [|split].
  - intros j J1 J2. etransitivity; [exact (G j)|]. rewrite upd_other by auto. rewrite MJ by auto. symmetry. exact (lo_get _ _ _ _ OK _ _ j K).
  - intros NE. unfold no_link. etransitivity; [exact (G i)|]. rewrite upd_other by auto. now rewrite MI.
  - eexists. cbv zeta in CK. split; [destruct CK as [E|E]; rewrite E in CN; [left|right]; exact CN|].
    rewrite EA, Crash.run_count_visits.
    assert (XR : 1 <= x <= a_top a1).
    { destruct WH as [I|I]; [now apply (ur_free _ _ _ R1)|]. assert (Q : a_map a1 x <> None) by congruence. apply (ur_dom _ _ _ R1) in Q. tauto. }
    rewrite (shown_one _ x o _ XR). destruct o; [right|left]; do 2 f_equal; lia.
Qed.
Lemma L_C79_split_partial cf tops lops st d i x st1 l q n sn orc st2 :
  let SL := split_links cf tops lops in
  unit_env cf tops lops -> s_hist cf tops lops st d -> SplitCrashClaims.all_fit cf tops lops st ->
  s_list_call cf tops lops st i x st1 -> list_op (s_dlen st1) (s_lhdr st1) (s_data st1) l x q ->
  s_in_list q n st1 sn -> s_open cf (s_persist sn orc) = Val (Ok st2) ->
  (forall j, j <> i -> j <> x -> li_get SL st2 j = li_get SL st j) /\ (i <> x -> no_link SL st2 i) /\
  exists k, (s_count cf st2 [] = Val k \/ s_count cf st2 [] = Val (k + 1)) /\
    (s_each cf (fun m _ => (m + 1, Continue)) [] st2 0 = Val (k, Continue) \/ s_each cf (fun m _ => (m + 1, Continue)) [] st2 0 = Val (k + 1, Continue)).
Proof.
  intros SL ENV HH LT CALL OP IN E2. destruct (s_hist_inv cf tops lops ENV st d HH) as (a & K & D).
  pose proof (f_ok _ _ _ ENV) as OK. pose proof K as [(R & W & VI) _]. pose proof (all_placed_tpl _ VI) as V.
  destruct (s_call_state cf tops lops st a i x st1 ENV K CALL) as (a1 & sP & tP & R1 & VP & LE & WH & MJ & MI).
  destruct (s_list_seen cf tops lops ENV st1 a1 sP tP l x q n sn orc st2 R1 VP (SplitCrashClaims.all_fit_cap cf tops lops ENV _ _ _ K LT LE) OP WH IN E2) as (o & c & G & EA & CN & CK).
  split; [|split].
  - intros j J1 J2. etransitivity; [exact (G j)|]. rewrite upd_other by auto. rewrite MJ by auto. symmetry. exact (lo_get _ _ _ _ OK _ _ j K).
  - intros NE. unfold no_link. etransitivity; [exact (G i)|]. rewrite upd_other by auto. now rewrite MI.
  - eexists. cbv zeta in CK. split; [destruct CK as [E|E]; rewrite E in CN; [left|right]; exact CN|].
    rewrite EA, Crash.run_count_visits.
    assert (XR : 1 <= x <= a_top a1).
    { destruct WH as [I|I]; [now apply (sm_free _ _ _ _ _ R1)|]. assert (Q : a_map a1 x <> None) by congruence. apply (sm_dom _ _ _ _ _ R1) in Q. tauto. }
    rewrite (shown_one _ x o _ XR). destruct o; [right|left]; do 2 f_equal; lia.
Qed.

(** The list operations the models are run with are such algorithms, on every ring. *)
Section Realised.
  Variables (len : N) (d0 : N -> N * N) (l : list N) (x c0 cz : N).
  Definition steady (h : lhdr) (d : N -> N * N) : Prop := in_order d0 l x h d /\ (lcount h = c0 \/ lcount h = cz).
  Definition lalways (p : lprog unit) (h : lhdr) (d : N -> N * N) : Prop :=
    forall n h' d', on_list len (lcut n p) h d = Val (tt, h', d') -> steady h' d'.
  Ltac one := let n := fresh in intros S A n ? ?; destruct n as [|n]; cbn [lcut on_list];
    [cbn [obind]; let H := fresh in intros H; injection H as <- <-; exact S|].
  Lemma la_done o h d : steady h d -> lalways (LDone o) h d.
  Proof. intros S [|n] h' d'; cbn [lcut on_list obind]; intros E; injection E as <- <-; exact S. Qed.
  Lemma la_gfirst k h d : steady h d -> lalways (k (lfirst h)) h d -> lalways (GetFirst k) h d.
  Proof. one. apply A. Qed.
  Lemma la_glast k h d : steady h d -> lalways (k (llast h)) h d -> lalways (GetLast k) h d.
  Proof. one. apply A. Qed.
  Lemma la_gcount k h d : steady h d -> lalways (k (lcount h)) h d -> lalways (GetCount k) h d.
  Proof. one. apply A. Qed.
  Lemma la_sfirst v k h d : steady h d -> lalways k (mkLhdr v (llast h) (lcount h)) d -> lalways (SetFirst v k) h d.
  Proof. one. apply A. Qed.
  Lemma la_slast v k h d : steady h d -> lalways k (mkLhdr (lfirst h) v (lcount h)) d -> lalways (SetLast v k) h d.
  Proof. one. apply A. Qed.
  Lemma la_scount v k h d : steady h d -> lalways k (mkLhdr (lfirst h) (llast h) v) d -> lalways (SetCount v k) h d.
  Proof. one. apply A. Qed.
  Lemma node_val T e (y : out T) r : node len e y = Val r -> y = Val r.
  Proof. unfold node. destruct (e =? 0); [discriminate|]. destruct (e <? len); [auto|discriminate]. Qed.
  Lemma la_gprev e k h d : steady h d -> lalways (k (fst (d e))) h d -> lalways (GetPrev e k) h d.
  Proof. one. intros E. apply node_val in E. exact (A _ _ _ E). Qed.
  Lemma la_gnext e k h d : steady h d -> lalways (k (snd (d e))) h d -> lalways (GetNext e k) h d.
  Proof. one. intros E. apply node_val in E. exact (A _ _ _ E). Qed.
  Lemma la_sprev e v k h d : steady h d -> lalways k h (upd d e (v, snd (d e))) -> lalways (SetPrev e v k) h d.
  Proof. one. intros E. apply node_val in E. exact (A _ _ _ E). Qed.
  Lemma la_snext e v k h d : steady h d -> lalways k h (upd d e (fst (d e), v)) -> lalways (SetNext e v k) h d.
  Proof. one. intros E. apply node_val in E. exact (A _ _ _ E). Qed.

  Definition theirs (e : N) : Prop := e = x \/ In e l.
  Lemma st_first v h d : steady h d -> v = 0 \/ theirs v -> steady (mkLhdr v (llast h) (lcount h)) d.
  Proof. intros ((A & B & C) & D) T. split; [|exact D]. split; [|auto]. cbn [lfirst]. unfold theirs in T. tauto. Qed.
  Lemma st_last v h d : steady h d -> steady (mkLhdr (lfirst h) v (lcount h)) d.
  Proof. intros ((A & B & C) & D). split; [|exact D]. split; auto. Qed.
  Lemma st_count v h d : steady h d -> v = c0 \/ v = cz -> steady (mkLhdr (lfirst h) (llast h) v) d.
  Proof. intros ((A & B & C) & D) T. split; [|exact T]. split; auto. Qed.
  Lemma st_prev e v h d : steady h d -> theirs e -> (e <> x -> v <> 0) -> steady h (upd d e (v, snd (d e))).
  Proof.
    intros ((A & B & C) & D) T V. split; [|exact D]. split; [exact A|]. split.
    - intros y Y1 Y2. unfold upd. destruct (N.eqb_spec y e) as [->|]; [destruct T; contradiction|auto].
    - intros y Y1 Y2. unfold upd. destruct (N.eqb_spec y e) as [->|]; [cbn [fst]; auto|auto].
  Qed.
  Lemma st_next e v h d : steady h d -> theirs e -> steady h (upd d e (fst (d e), v)).
  Proof.
    intros ((A & B & C) & D) T. split; [|exact D]. split; [exact A|]. split.
    - intros y Y1 Y2. unfold upd. destruct (N.eqb_spec y e) as [->|]; [destruct T; contradiction|auto].
    - intros y Y1 Y2. unfold upd. destruct (N.eqb_spec y e) as [->|]; [cbn [fst]; auto|auto].
  Qed.
End Realised.
Lemma L_C79_realised len h d l x : lrep h d l -> (forall y, In y l -> y < len) -> x <> 0 -> x < len ->
  (~ In x l -> list_op len h d l x (attach_first x)) /\ (In x l -> list_op len h d l x (detach x)).
Proof.
  intros R B X0 XL. destruct (L_C76_realised len h d l x R B X0 XL) as [RA RD].
  pose proof R as (ND & NZ & HF & HL & HC & HS).
  assert (MEM : forall y, In y l -> y <> 0 /\ In (fst (d y)) l /\ In (snd (d y)) l).
  { intros y Y. assert (LN : l <> []) by (intros ->; contradiction).
    destruct (seg_in_pair d l (last l 0) (hd 0 l) y HS Y) as [P Q]. split; [intros ->; contradiction|]. split.
    - destruct P as [<-|P]; auto. now apply last_in.
    - apply in_app_or in Q. destruct Q as [Q|[<-|[]]]; auto. destruct l; [contradiction|now left]. }
  assert (S0 : forall cz, steady d l x (lcount h) cz h d).
  { intros cz. split; [|now left]. split; [|split; [auto|]].
    - rewrite HF. destruct l; [now left|right; right; now left].
    - intros y Y _. eapply lrep_prev_nonzero; eauto. }
  assert (NE : forall y, In y l -> y <> 0) by (intros y Y; now apply MEM).
  split; intros XI; (split; [exact R|split; [exact X0|]]).
  - destruct (l_attach_ok ref_list_ops ref_list_ops_ok h d l x R X0 XI) as (hz & dz & E & LZ & _).
    destruct (RA _ _ E XI) as (d2 & E2 & DE). exists hz, d2. split; [exact E2|]. split.
    { right. split; [exact XI|]. eapply lrep_ext; [|exact LZ]. intros; apply DE. }
    assert (CZ : lcount hz = lcount h + 1) by (destruct LZ as (_ & _ & _ & _ & C & _); rewrite C, HC; cbn [length]; lia).
    rewrite CZ. change (lalways len d l x (lcount h) (lcount h + 1) (attach_first x) h d). specialize (S0 (lcount h + 1)).
    unfold attach_first. apply la_gfirst; auto.
    destruct (N.eqb_spec (lfirst h) 0) as [F0|F0].
    + apply la_sfirst; auto. apply (st_first _ _ _ _ _ x) in S0; [|unfold theirs; auto].
      apply la_slast; auto. apply (st_last _ _ _ _ _ x) in S0. cbn [lfirst llast lcount] in S0 |- *.
      apply la_sprev; auto. apply (st_prev _ _ _ _ _ x x) in S0; [|unfold theirs; auto|auto].
      apply la_snext; auto. apply (st_next _ _ _ _ _ x x) in S0; [|unfold theirs; auto].
      apply la_gcount; auto. apply la_scount; auto. apply (st_count _ _ _ _ _ (lcount h + 1)) in S0; [|now right]. apply la_done. exact S0.
    + assert (FI : In (lfirst h) l) by (rewrite HF in F0 |- *; destruct l; [now contradiction F0|now left]).
      destruct (MEM _ FI) as (_ & PI & _).
      apply la_gprev; auto. set (p := fst (d (lfirst h))) in *. set (f := lfirst h) in *.
      apply la_sprev; auto. apply (st_prev _ _ _ _ _ x p) in S0; [|unfold theirs; auto|intros; now apply NE].
      apply la_snext; auto. apply (st_next _ _ _ _ _ x f) in S0; [|unfold theirs; auto].
      apply la_snext; auto. apply (st_next _ _ _ _ _ p x) in S0; [|unfold theirs; auto].
      apply la_sprev; auto. apply (st_prev _ _ _ _ _ f x) in S0; [|unfold theirs; auto|auto].
      apply la_sfirst; auto. apply (st_first _ _ _ _ _ x) in S0; [|unfold theirs; auto].
      apply la_gcount; auto. apply la_scount; auto. apply (st_count _ _ _ _ _ (lcount h + 1)) in S0; [|now right]. apply la_done. exact S0.
  - destruct (l_detach_ok ref_list_ops ref_list_ops_ok h d l x R XI) as (hz & dz & E & LZ & _).
    destruct (RD _ _ E XI) as (d2 & E2 & DE). exists hz, d2. split; [exact E2|]. split.
    { left. split; [exact XI|]. eapply lrep_ext; [|exact LZ]. intros; apply DE. }
    assert (CZ : lcount hz = lcount h - 1) by (destruct LZ as (_ & _ & _ & _ & C & _); rewrite C, HC; pose proof (lremove_length x l ND XI); lia).
    rewrite CZ. change (lalways len d l x (lcount h) (lcount h - 1) (detach x) h d). specialize (S0 (lcount h - 1)).
    destruct (MEM _ XI) as (_ & PI & QI).
    assert (TAIL : forall h' d', steady d l x (lcount h) (lcount h - 1) h' d' -> lcount h' = lcount h ->
      lalways len d l x (lcount h) (lcount h - 1) (SetPrev x 0 (SetNext x 0 (GetCount (fun c => SetCount (c - 1) (LDone (Val tt)))))) h' d').
    { intros h' d' S C. apply la_sprev; auto. apply (st_prev _ _ _ _ _ x 0) in S; [|unfold theirs; auto|tauto].
      apply la_snext; auto. apply (st_next _ _ _ _ _ x 0) in S; [|unfold theirs; auto].
      apply la_gcount; auto. apply la_scount; auto. rewrite C. apply (st_count _ _ _ _ _ (lcount h - 1)) in S; [|now right]. apply la_done. exact S. }
    unfold detach. apply la_gprev; auto. apply la_gnext; auto. set (p := fst (d x)) in *. set (nx := snd (d x)) in *.
    destruct (N.eqb_spec nx x) as [SX|SX].
    + apply la_sfirst; auto. apply (st_first _ _ _ _ _ 0) in S0; [|auto]. apply la_slast; [exact S0|]. apply TAIL; auto.
    + apply la_snext; auto. apply (st_next _ _ _ _ _ p nx) in S0; [|unfold theirs; auto].
      apply la_sprev; auto. apply (st_prev _ _ _ _ _ nx p) in S0; [|unfold theirs; auto|intros; now apply NE].
      apply la_gfirst; auto.
      destruct (lfirst h =? x).
      * apply la_sfirst; auto. apply (st_first _ _ _ _ _ nx) in S0; [|unfold theirs; auto]. apply la_glast; auto. cbn [llast].
        destruct (llast h =? x); [apply la_slast; [exact S0|]|]; apply TAIL; auto.
      * apply la_glast; auto.
        destruct (llast h =? x); [apply la_slast; [exact S0|]|]; apply TAIL; auto.
Qed.
(** So they are for every call. *)
Lemma L_C79_calls_realised cf tops lops :
  unit_env cf tops lops ->
  (forall st d i x st1, u_hist cf tops lops st d -> u_list_call cf tops lops st i x st1 ->
     exists l q, list_op (u_len st1) (u_lhdr st1) (u_data st1) l x q /\ (q = attach_first x \/ q = detach x)) /\
  (forall st d i x st1, s_hist cf tops lops st d -> s_list_call cf tops lops st i x st1 ->
     exists l q, list_op (s_dlen st1) (s_lhdr st1) (s_data st1) l x q /\ (q = attach_first x \/ q = detach x)).
Proof.
  intros ENV. split; intros st d i x st1 HH CALL.
  - destruct (u_hist_inv cf tops lops ENV st d HH) as (a & K & _).
    destruct (u_call_state cf tops lops st a i x st1 ENV K CALL) as (a1 & R1 & _ & WH & _).
    pose proof (ur_len _ _ _ R1) as UL.
    assert (XR : 1 <= x <= a_top a1).
    { destruct WH as [I|I]; [now apply (ur_free _ _ _ R1)|]. assert (Q : a_map a1 x <> None) by congruence. apply (ur_dom _ _ _ R1) in Q. tauto. }
    destruct (L_C79_realised (u_len st1) _ _ _ x (ur_list _ _ _ R1)) as [RA RD]; [intros y Y; apply (ur_free _ _ _ R1) in Y; lia|lia|lia|].
    exists (a_free a1). destruct (in_dec N.eq_dec x (a_free a1)); eexists; eauto.
  - destruct (s_hist_inv cf tops lops ENV st d HH) as (a & K & _).
    destruct (s_call_state cf tops lops st a i x st1 ENV K CALL) as (a1 & sP & tP & R1 & _ & _ & WH & _).
    pose proof (sm_len _ _ _ _ _ R1) as UL. pose proof (sm_dlen _ _ _ _ _ R1) as DL.
    assert (XR : 1 <= x <= a_top a1).
    { destruct WH as [I|I]; [now apply (sm_free _ _ _ _ _ R1)|]. assert (Q : a_map a1 x <> None) by congruence. apply (sm_dom _ _ _ _ _ R1) in Q. tauto. }
    destruct (L_C79_realised (s_dlen st1) _ _ _ x (sm_list _ _ _ _ _ R1)) as [RA RD]; [intros y Y; apply (sm_free _ _ _ _ _ R1) in Y; lia|lia|lia|].
    exists (a_free a1). destruct (in_dec N.eq_dec x (a_free a1)); eexists; eauto.
Qed.

(** The full statement fails.  Links 1 and 5 with 2, 3 and 4 free: a creation that stops after the
    previous element of 4 is cleared shows the link 4 = 0 -> 3, which is neither the link to be
    made nor between links, and each shows three links where count gives two. *)
Definition u_lstop (n : nat) (q : lprog unit) (st : ust) : ust :=
  match on_list (u_len st) (lcut n q) (u_lhdr st) (u_data st) with Val (_, h, d) => set_lhdr st h d | _ => st end.
Definition s_lstop (n : nat) (q : lprog unit) (st : sst) : sst :=
  match on_list (s_dlen st) (lcut n q) (s_lhdr st) (s_data st) with Val (_, h, d) => s_set_lhdr st h d | _ => st end.
Lemma u_lstop_in n q st r : 0 < u_len st -> on_list (u_len st) q (u_lhdr st) (u_data st) = Val r -> u_in_list q n st (u_lstop n q st).
Proof.
  intros L E. destruct (lcut_val _ _ _ n _ _ _ E) as (h' & d' & E1). pose proof (ul_simulates st unit (lcut n q) L) as S.
  unfold u_lstop. rewrite E1 in *. destruct S as (m & EM & SM). exists m. auto.
Qed.
Lemma s_lstop_in n q st r : 0 < s_ilen st -> on_list (s_dlen st) q (s_lhdr st) (s_data st) = Val r -> s_in_list q n st (s_lstop n q st).
Proof.
  intros L E. destruct (lcut_val _ _ _ n _ _ _ E) as (h' & d' & E1). pose proof (sl_simulates st unit (lcut n q) L) as S.
  unfold s_lstop. rewrite E1 in *. destruct S as (m & EM & SM). exists m. auto.
Qed.
Lemma u_op_in n l x q st : 0 < u_len st -> list_op (u_len st) (u_lhdr st) (u_data st) l x q -> u_in_list q n st (u_lstop n q st).
Proof. intros L (_ & _ & hz & dz & E & _). eapply u_lstop_in; eauto. Qed.
Lemma s_op_in n l x q st : 0 < s_ilen st -> list_op (s_dlen st) (s_lhdr st) (s_data st) l x q -> s_in_list q n st (s_lstop n q st).
Proof. intros L (_ & _ & hz & dz & E & _). eapply s_lstop_in; eauto. Qed.

Lemma ex_free_u : u_len (ex_st ex_free) = 8 /\ lrep (u_lhdr (ex_st ex_free)) (u_data (ex_st ex_free)) [4; 3; 2] /\
  list_op (u_len (ex_st ex_free)) (u_lhdr (ex_st ex_free)) (u_data (ex_st ex_free)) [4; 3; 2] 4 (detach 4).
Proof.
  destruct L_C76_nonvacuous as (_ & _ & R & _ & L & _). split; [exact L|]. split; [exact R|].
  destruct (L_C79_realised (u_len (ex_st ex_free)) _ _ [4; 3; 2] 4 R) as [_ D]; [rewrite L; intros y [<-|[<-|[<-|[]]]]; reflexivity|discriminate|rewrite L; reflexivity|].
  apply D. now left.
Qed.
Lemma ex_free_s : s_dlen (ex_sst ex_free) = 8 /\ lrep (s_lhdr (ex_sst ex_free)) (s_data (ex_sst ex_free)) [4; 3; 2] /\
  list_op (s_dlen (ex_sst ex_free)) (s_lhdr (ex_sst ex_free)) (s_data (ex_sst ex_free)) [4; 3; 2] 4 (detach 4).
Proof.
  destruct L_C76_nonvacuous as (_ & _ & _ & R & _ & L & _). split; [exact L|]. split; [exact R|].
  destruct (L_C79_realised (s_dlen (ex_sst ex_free)) _ _ [4; 3; 2] 4 R) as [_ D]; [rewrite L; intros y [<-|[<-|[<-|[]]]]; reflexivity|discriminate|rewrite L; reflexivity|].
  apply D. now left.
Qed.
Lemma L_C79_refuted :
  (exists st d sn st2, u_hist ex_cf ref_tree_ops ref_list_ops st d /\ u_list_call ex_cf ref_tree_ops ref_list_ops st 4 4 st /\
     list_op (u_len st) (u_lhdr st) (u_data st) [4; 3; 2] 4 (detach 4) /\ u_in_list (detach 4) 8 st sn /\
     u_open ex_cf (u_persist sn (fun _ _ => true)) = Val (Ok st2) /\ no_link ex_U st 4 /\ is_link ex_U st2 4 0 3 /\ no_link ex_U st2 3 /\
     u_count ex_cf st2 [] = Val 2 /\ u_each ex_cf (fun m _ => (m + 1, Continue)) [] st2 0 = Val (3, Continue)) /\
  (exists st d sn st2, s_hist ex_cf ref_tree_ops ref_list_ops st d /\ s_list_call ex_cf ref_tree_ops ref_list_ops st 4 4 st /\
     list_op (s_dlen st) (s_lhdr st) (s_data st) [4; 3; 2] 4 (detach 4) /\ s_in_list (detach 4) 8 st sn /\
     s_open ex_cf (s_persist sn all_grown) = Val (Ok st2) /\ no_link ex_S st 4 /\ is_link ex_S st2 4 0 3 /\ no_link ex_S st2 3 /\
     s_count ex_cf st2 [] = Val 2 /\ s_each ex_cf (fun m _ => (m + 1, Continue)) [] st2 0 = Val (3, Continue)).
Proof.
  split.
  - destruct (ex_reach ex_free) as (d & HH & _); [vm_compute; reflexivity..|]. destruct ex_free_u as (L & R & OP).
    exists (ex_st ex_free), d, (u_lstop 8 (detach 4) (ex_st ex_free)), (CrashClaims.ex_opened (u_lstop 8 (detach 4) (ex_st ex_free))).
    split; [exact HH|]. split; [exact (Reuse ex_cf ref_tree_ops ref_list_ops (ex_st ex_free) ltac:(vm_compute; discriminate))|].
    split; [exact OP|]. split; [eapply u_op_in; [rewrite L; reflexivity|exact OP]|]. split; [vm_compute; reflexivity|].
    split; [unfold no_link; vm_compute; reflexivity|]. split; [unfold is_link; vm_compute; reflexivity|]. split; [unfold no_link; vm_compute; reflexivity|].
    split; vm_compute; reflexivity.
  - destruct (ex_sreach ex_free) as (d & HH & _); [vm_compute; reflexivity..|]. destruct ex_free_s as (L & R & OP).
    exists (ex_sst ex_free), d, (s_lstop 8 (detach 4) (ex_sst ex_free)), (SplitCrashClaims.ex_sopened (s_lstop 8 (detach 4) (ex_sst ex_free))).
    split; [exact HH|]. split; [exact (SReuse ex_cf ref_tree_ops ref_list_ops (ex_sst ex_free) ltac:(vm_compute; discriminate))|].
    split; [exact OP|]. split; [eapply s_op_in; [vm_compute; reflexivity|exact OP]|]. split; [vm_compute; reflexivity|].
    split; [unfold no_link; vm_compute; reflexivity|]. split; [unfold is_link; vm_compute; reflexivity|]. split; [unfold no_link; vm_compute; reflexivity|].
    split; vm_compute; reflexivity.
Qed.

(** An algorithm that takes 4 off the list as well, but clears another free element on the way,
    shows that element; one that lets a link be first on the way hides that link. *)
Definition clears_other : lprog unit := SetPrev 3 0 (SetPrev 3 4 (detach 4)).
Definition link_first : lprog unit := GetFirst (fun f => SetFirst 5 (SetFirst f (detach 4))).
Lemma L_C79_care_needed :
  (forall q, In q [clears_other; link_first] -> exists h d, on_list 8 q (u_lhdr (ex_st ex_free)) (u_data (ex_st ex_free)) = Val (tt, h, d) /\
     map d [0; 2; 3; 4] = [(5, 7); (3, 3); (2, 2); (0, 0)] /\ lfirst h = 3 /\ llast h = 2 /\ lcount h = 2) /\
  (exists st d sn st2, u_hist ex_cf ref_tree_ops ref_list_ops st d /\ u_in_list clears_other 1 st sn /\
     u_open ex_cf (u_persist sn (fun _ _ => true)) = Val (Ok st2) /\ no_link ex_U st 3 /\ linked ex_U st2 3) /\
  (exists st d sn st2, u_hist ex_cf ref_tree_ops ref_list_ops st d /\ u_in_list link_first 2 st sn /\
     u_open ex_cf (u_persist sn (fun _ _ => true)) = Val (Ok st2) /\ is_link ex_U st 5 0 0 /\ no_link ex_U st2 5) /\
  (exists st d sn st2, s_hist ex_cf ref_tree_ops ref_list_ops st d /\ s_in_list clears_other 1 st sn /\
     s_open ex_cf (s_persist sn all_grown) = Val (Ok st2) /\ no_link ex_S st 3 /\ linked ex_S st2 3) /\
  (exists st d sn st2, s_hist ex_cf ref_tree_ops ref_list_ops st d /\ s_in_list link_first 2 st sn /\
     s_open ex_cf (s_persist sn all_grown) = Val (Ok st2) /\ is_link ex_S st 5 0 0 /\ no_link ex_S st2 5).
Proof.
  assert (RU : forall q, In q [clears_other; link_first] -> exists r, on_list 8 q (u_lhdr (ex_st ex_free)) (u_data (ex_st ex_free)) = Val r).
  { intros q [<-|[<-|[]]]; vm_compute; eexists; reflexivity. }
  assert (RS : forall q, In q [clears_other; link_first] -> exists r, on_list 8 q (s_lhdr (ex_sst ex_free)) (s_data (ex_sst ex_free)) = Val r).
  { intros q [<-|[<-|[]]]; vm_compute; eexists; reflexivity. }
  destruct (ex_reach ex_free) as (d & HH & _); [vm_compute; reflexivity..|]. destruct (ex_sreach ex_free) as (ds & HS & _); [vm_compute; reflexivity..|].
  assert (LU : u_len (ex_st ex_free) = 8) by apply ex_free_u. assert (LS : s_dlen (ex_sst ex_free) = 8) by apply ex_free_s.
  split; [|split; [|split; [|split]]].
  - intros q IQ. exists (match on_list 8 q (u_lhdr (ex_st ex_free)) (u_data (ex_st ex_free)) with Val (_, h, _) => h | _ => mkLhdr 0 0 0 end).
    exists (match on_list 8 q (u_lhdr (ex_st ex_free)) (u_data (ex_st ex_free)) with Val (_, _, d) => d | _ => fun _ => (0, 0) end).
    destruct IQ as [<-|[<-|[]]]; (split; [vm_compute; reflexivity|split; [vm_compute; reflexivity|]]); repeat split; vm_compute; reflexivity.
  - destruct (RU clears_other ltac:(now left)) as [r E]. rewrite <- LU in E.
    exists (ex_st ex_free), d, (u_lstop 1 clears_other (ex_st ex_free)), (CrashClaims.ex_opened (u_lstop 1 clears_other (ex_st ex_free))).
    split; [exact HH|]. split; [eapply u_lstop_in; [rewrite LU; reflexivity|exact E]|]. split; [vm_compute; reflexivity|].
    split; [unfold no_link; vm_compute; reflexivity|]. exists 0, 2. unfold is_link; vm_compute; reflexivity.
  - destruct (RU link_first ltac:(right; now left)) as [r E]. rewrite <- LU in E.
    exists (ex_st ex_free), d, (u_lstop 2 link_first (ex_st ex_free)), (CrashClaims.ex_opened (u_lstop 2 link_first (ex_st ex_free))).
    split; [exact HH|]. split; [eapply u_lstop_in; [rewrite LU; reflexivity|exact E]|]. split; [vm_compute; reflexivity|].
    split; [unfold is_link; vm_compute; reflexivity|]. unfold no_link; vm_compute; reflexivity.
  - destruct (RS clears_other ltac:(now left)) as [r E]. rewrite <- LS in E.
    exists (ex_sst ex_free), ds, (s_lstop 1 clears_other (ex_sst ex_free)), (SplitCrashClaims.ex_sopened (s_lstop 1 clears_other (ex_sst ex_free))).
    split; [exact HS|]. split; [eapply s_lstop_in; [vm_compute; reflexivity|exact E]|]. split; [vm_compute; reflexivity|].
    split; [unfold no_link; vm_compute; reflexivity|]. exists 0, 2. unfold is_link; vm_compute; reflexivity.
  - destruct (RS link_first ltac:(right; now left)) as [r E]. rewrite <- LS in E.
    exists (ex_sst ex_free), ds, (s_lstop 2 link_first (ex_sst ex_free)), (SplitCrashClaims.ex_sopened (s_lstop 2 link_first (ex_sst ex_free))).
    split; [exact HS|]. split; [eapply s_lstop_in; [vm_compute; reflexivity|exact E]|]. split; [vm_compute; reflexivity|].
    split; [unfold is_link; vm_compute; reflexivity|]. unfold no_link; vm_compute; reflexivity.
Qed.

(** Every kind of call is met, and stopping anywhere in it: 4 is reused; 1 is put on the list;
    2 is taken off it while 3 is deleted. *)
Lemma L_C79_nonvacuous n : (n < 12)%nat ->
  (forall cmds i x, In (cmds, i, x) [(ex_free, 4, 4); (CrashClaims.ex_del, 1, 1); (CrashClaims.ex_del, 3, 2)] ->
     exists st d st1 l q sn st2, st = ex_st cmds /\ u_hist ex_cf ref_tree_ops ref_list_ops st d /\ (forall j, linked ex_U st j -> j < c_step ex_cf) /\
       u_list_call ex_cf ref_tree_ops ref_list_ops st i x st1 /\ list_op (u_len st1) (u_lhdr st1) (u_data st1) l x q /\
       u_in_list q n st1 sn /\ u_open ex_cf (u_persist sn (fun _ _ => true)) = Val (Ok st2)) /\
  (forall cmds i x, In (cmds, i, x) [(ex_free, 4, 4); (CrashClaims.ex_del, 1, 1); (CrashClaims.ex_del, 3, 2)] ->
     exists st d st1 l q sn st2, st = ex_sst cmds /\ s_hist ex_cf ref_tree_ops ref_list_ops st d /\ SplitCrashClaims.all_fit ex_cf ref_tree_ops ref_list_ops st /\
       s_list_call ex_cf ref_tree_ops ref_list_ops st i x st1 /\ list_op (s_dlen st1) (s_lhdr st1) (s_data st1) l x q /\
       s_in_list q n st1 sn /\ s_open ex_cf (s_persist sn all_grown) = Val (Ok st2)).
Proof.
  intros N12. pose proof (e_ok _ _ _ ex_env) as OK.
  assert (NZ : forall (P : nat -> Prop), P 0%nat -> P 1%nat -> P 2%nat -> P 3%nat -> P 4%nat -> P 5%nat -> P 6%nat -> P 7%nat -> P 8%nat -> P 9%nat ->
    P 10%nat -> P 11%nat -> P n).
  { intros P. intros. do 12 (destruct n as [|n]; [assumption|]). lia. }
  split; intros cmds i x IC.
  - destruct IC as [IC|[IC|[IC|[]]]]; injection IC as <- <- <-.
    + destruct (ex_reach ex_free) as (d & HH & K); [vm_compute; reflexivity..|]. destruct ex_free_u as (L & R & OP).
      set (sn := u_lstop n (detach 4) (ex_st ex_free)).
      exists (ex_st ex_free), d, (ex_st ex_free), [4; 3; 2], (detach 4), sn, (CrashClaims.ex_opened sn).
      split; [reflexivity|]. split; [exact HH|].
      split. { intros j LJ. apply (ob_top ex_cf _ _ _ OK _ _ K) in LJ. vm_compute (a_top _) in LJ. cbn. lia. }
      split; [exact (Reuse ex_cf ref_tree_ops ref_list_ops (ex_st ex_free) ltac:(vm_compute; discriminate))|].
      split; [exact OP|]. split; [eapply u_op_in; [rewrite L; reflexivity|exact OP]|].
      subst sn. pattern n. apply NZ; vm_compute; reflexivity.
    + destruct (ex_reach CrashClaims.ex_del) as (d & HH & K); [vm_compute; reflexivity..|].
      assert (DP : distinct_pairs ex_U (ex_st CrashClaims.ex_del)) by (apply ex_distinct; vm_compute; reflexivity).
      set (z := match u_relink ref_tree_ops (ex_st CrashClaims.ex_del) 1 1 1 0 0 with Val s => s | _ => ex_start end).
      assert (R : lrep (u_lhdr z) (u_data z) [2]).
      { split; [repeat constructor; cbn; intuition discriminate|]. split; [cbn; intuition discriminate|]. repeat split; vm_compute; reflexivity. }
      assert (L : u_len z = 8) by (vm_compute; reflexivity).
      destruct (L_C79_realised (u_len z) _ _ [2] 1 R) as [OP _]; [rewrite L; intros y [<-|[]]; reflexivity|discriminate|rewrite L; reflexivity|].
      specialize (OP ltac:(cbn; intuition discriminate)).
      set (sn := u_lstop n (attach_first 1) z). exists (ex_st CrashClaims.ex_del), d, z, [2], (attach_first 1), sn, (CrashClaims.ex_opened sn).
      split; [reflexivity|]. split; [exact HH|].
      split. { intros j LJ. apply (ob_top ex_cf _ _ _ OK _ _ K) in LJ. vm_compute (a_top _) in LJ. cbn. lia. }
      split. { apply (PutBack ex_cf ref_tree_ops ref_list_ops _ 1 1 1); [unfold is_link; vm_compute; reflexivity|apply distinct_separable; exact DP| |vm_compute; reflexivity].
        exists z. split; [vm_compute; reflexivity|reflexivity]. }
      split; [exact OP|]. split; [eapply u_op_in; [rewrite L; reflexivity|exact OP]|].
      subst sn z. pattern n. apply NZ; vm_compute; reflexivity.
    + destruct (ex_reach CrashClaims.ex_del) as (d & HH & K); [vm_compute; reflexivity..|].
      assert (DP : distinct_pairs ex_U (ex_st CrashClaims.ex_del)) by (apply ex_distinct; vm_compute; reflexivity).
      pose (z := CrashClaims.ex_lowered).
      assert (R : lrep (u_lhdr z) (u_data z) [2]).
      { split; [repeat constructor; cbn; intuition discriminate|]. split; [cbn; intuition discriminate|]. repeat split; vm_compute; reflexivity. }
      assert (L : u_len z = 8) by (vm_compute; reflexivity).
      destruct (L_C79_realised (u_len z) _ _ [2] 2 R) as [_ OP]; [rewrite L; intros y [<-|[]]; reflexivity|discriminate|rewrite L; reflexivity|].
      specialize (OP ltac:(now left)).
      set (sn := u_lstop n (detach 2) z). exists (ex_st CrashClaims.ex_del), d, z, [2], (detach 2), sn, (CrashClaims.ex_opened sn).
      split; [reflexivity|]. split; [exact HH|].
      split. { intros j LJ. apply (ob_top ex_cf _ _ _ OK _ _ K) in LJ. vm_compute (a_top _) in LJ. cbn. lia. }
      split. { assert (A2 : h_alloc z = 2) by (vm_compute; reflexivity). rewrite <- A2.
        apply (TrimLast ex_cf ref_tree_ops ref_list_ops _ 3 2 1 0%nat); [unfold is_link; vm_compute; reflexivity|apply distinct_separable; exact DP| | |].
        - exists CrashClaims.ex_zeroed. split; [vm_compute; reflexivity|]. split; [vm_compute; reflexivity|reflexivity].
        - rewrite A2. reflexivity.
        - vm_compute; reflexivity. }
      split; [exact OP|]. split; [eapply u_op_in; [rewrite L; reflexivity|exact OP]|].
      subst sn z. pattern n. apply NZ; vm_compute; reflexivity.
  - destruct IC as [IC|[IC|[IC|[]]]]; injection IC as <- <- <-.
    + destruct (ex_sreach ex_free) as (d & HH & K); [vm_compute; reflexivity..|]. destruct ex_free_s as (L & R & OP).
      set (sn := s_lstop n (detach 4) (ex_sst ex_free)).
      exists (ex_sst ex_free), d, (ex_sst ex_free), [4; 3; 2], (detach 4), sn, (SplitCrashClaims.ex_sopened sn).
      split; [reflexivity|]. split; [exact HH|]. split.
      { intros j LJ. apply (ob_top ex_cf _ _ _ (f_ok _ _ _ ex_env) _ _ K) in LJ. right. vm_compute (a_top _) in LJ. cbn. lia. }
      split; [exact (SReuse ex_cf ref_tree_ops ref_list_ops (ex_sst ex_free) ltac:(vm_compute; discriminate))|].
      split; [exact OP|]. split; [eapply s_op_in; [vm_compute; reflexivity|exact OP]|].
      subst sn. pattern n. apply NZ; vm_compute; reflexivity.
    + destruct (ex_sreach SplitCrashClaims.ex_sdel) as (d & HH & K); [vm_compute; reflexivity..|].
      assert (DP : distinct_pairs ex_S (ex_sst SplitCrashClaims.ex_sdel)) by (apply ex_sdistinct; vm_compute; reflexivity).
      set (r := SplitCrashClaims.ex_val (s_resolve_internal ex_cf ref_tree_ops (ex_sst SplitCrashClaims.ex_sdel) 1)).
      set (z := SplitCrashClaims.ex_val (SplitCrash.s_stop ref_tree_ops r 1 1 1 0 0 6)).
      assert (R : lrep (s_lhdr z) (s_data z) [2]).
      { split; [repeat constructor; cbn; intuition discriminate|]. split; [cbn; intuition discriminate|]. repeat split; vm_compute; reflexivity. }
      assert (L : s_dlen z = 8) by (vm_compute; reflexivity).
      destruct (L_C79_realised (s_dlen z) _ _ [2] 1 R) as [OP _]; [rewrite L; intros y [<-|[]]; reflexivity|discriminate|rewrite L; reflexivity|].
      specialize (OP ltac:(cbn; intuition discriminate)).
      set (sn := s_lstop n (attach_first 1) z). exists (ex_sst SplitCrashClaims.ex_sdel), d, z, [2], (attach_first 1), sn, (SplitCrashClaims.ex_sopened sn).
      split; [reflexivity|]. split; [exact HH|]. split; [apply SplitCrashClaims.ex_all_fit; vm_compute; reflexivity|].
      split. { apply (SPutBack ex_cf ref_tree_ops ref_list_ops _ 1 1 1); [unfold is_link; vm_compute; reflexivity|apply s_okd_distinct; exact DP| |vm_compute; reflexivity].
        exists r. split; vm_compute; reflexivity. }
      split; [exact OP|]. split; [eapply s_op_in; [vm_compute; reflexivity|exact OP]|].
      subst sn z r. pattern n. apply NZ; vm_compute; reflexivity.
    + destruct (ex_sreach SplitCrashClaims.ex_sdel) as (d & HH & K); [vm_compute; reflexivity..|].
      assert (DP : distinct_pairs ex_S (ex_sst SplitCrashClaims.ex_sdel)) by (apply ex_sdistinct; vm_compute; reflexivity).
      pose (z := SplitCrashClaims.ex_low).
      assert (R : lrep (s_lhdr z) (s_data z) [2]).
      { split; [repeat constructor; cbn; intuition discriminate|]. split; [cbn; intuition discriminate|]. repeat split; vm_compute; reflexivity. }
      assert (L : s_dlen z = 8) by (vm_compute; reflexivity).
      destruct (L_C79_realised (s_dlen z) _ _ [2] 2 R) as [_ OP]; [rewrite L; intros y [<-|[]]; reflexivity|discriminate|rewrite L; reflexivity|].
      specialize (OP ltac:(now left)).
      set (sn := s_lstop n (detach 2) z). exists (ex_sst SplitCrashClaims.ex_sdel), d, z, [2], (detach 2), sn, (SplitCrashClaims.ex_sopened sn).
      split; [reflexivity|]. split; [exact HH|]. split; [apply SplitCrashClaims.ex_all_fit; vm_compute; reflexivity|].
      split. { assert (A2 : sh_alloc z = 2) by (vm_compute; reflexivity). rewrite <- A2.
        apply (STrimLast ex_cf ref_tree_ops ref_list_ops _ 3 2 1 0%nat); [unfold is_link; vm_compute; reflexivity|apply s_okd_distinct; exact DP| | |].
        - exists SplitCrashClaims.ex_r0, (SplitCrashClaims.ex_e 6). split; [vm_compute; reflexivity|]. split; [vm_compute; reflexivity|].
          split; [vm_compute; reflexivity|reflexivity].
        - rewrite A2. reflexivity.
        - vm_compute; reflexivity. }
      split; [exact OP|]. split; [eapply s_op_in; [vm_compute; reflexivity|exact OP]|].
      subst sn z. pattern n. apply NZ; vm_compute; reflexivity.
Qed.
