(** Builds without overflow checks in states that no disciplined history reaches (C103; the
    statements are repeated in PropWrapStates.v). *)
From Coq Require Import NArith PeanoNat List Bool Lia Permutation.
From Verif Require Import Base Trees Lists Spec Iface UnitModel UnitInv UnitOps UnitLinks LinkModel SplitModel Forest
  SplitInv SplitReads SplitOps SplitWrites SplitLinks Doublets DoubletsOK Obs Hist Claims TreeImpl UnitHist SplitHist UnitClaims SplitClaims
  Crash Scars AfterCrash SplitLife SplitScars SplitAfterCrash WrapModel WrapClaims.
Import ListNotations.
Open Scope N_scope.

Lemma w_add cf a b : a + b <= c_tmax cf -> wadd (c_tmax cf) a b = cadd (c_tmax cf) a b.
Proof.
  intros L. unfold wadd, cadd. destruct (N.leb_spec (a + b) (c_tmax cf)); [|lia]. rewrite N.mod_small by lia. reflexivity.
Qed.
Lemma w_sub cf a b : b <= a -> wsub (c_tmax cf) a b = csub a b.
Proof. intros L. rewrite wsub_ok by exact L. now rewrite csub_ok by exact L. Qed.

Section Unit.
  Variables (cf : cfg) (tops : tree_ops) (lops : list_ops).
  Hypothesis CF : cfg_ok cf.

  Lemma w_grow st : h_reserved st <> 0 -> wu_grow cf st = u_grow cf st.
  Proof. intros R. unfold wu_grow, u_grow. rewrite w_sub by lia. reflexivity. Qed.
  Lemma grow_alloc st st1 : u_grow cf st = Val (st1, Ok tt) -> h_alloc st1 = h_alloc st.
  Proof.
    unfold u_grow. destruct (csub (h_reserved st) 1) as [r1| | |]; cbn [obind]; try discriminate.
    destruct (r1 <=? h_alloc st); [|intros E; injection E as <-; reflexivity].
    unfold u_alloc_mem. destruct (u_orc st 0%nat (u_len st + c_step cf)); [|discriminate].
    match goal with |- obind (u_header ?m) _ = _ -> _ => destruct (u_header m); cbn [obind]; try discriminate end.
    match goal with |- obind (ctry ?m ?n) _ = _ -> _ => destruct (ctry m n); cbn [obind]; try discriminate end.
    intros E. injection E as <-. reflexivity.
  Qed.
  Lemma w_create_same st H (h : whandler H) q x : h_reserved st <> 0 -> wu_create cf lops h q st x = u_create cf lops h q st x.
  Proof.
    intros R. unfold wu_create, u_create. rewrite (w_grow _ R). destruct (u_header st); cbn [obind]; try reflexivity.
    destruct (h_first st =? c_null cf); [|reflexivity]. destruct (N.leb_spec (c_iend cf) (h_alloc st)); [reflexivity|].
    destruct (u_grow cf st) as [[st1 [[]|e]]| | |] eqn:E; cbn [obind]; try reflexivity.
    apply grow_alloc in E. rewrite w_add; [reflexivity|]. pose proof (ok_iend _ CF). pose proof (ok_any _ CF). lia.
  Qed.
  Lemma w_trim_same : forall n st, wu_trim cf lops n st = u_trim lops n st.
  Proof.
    induction n as [|n IH]; intros st; [reflexivity|]. cbn [wu_trim u_trim]. destruct (u_header st); cbn [obind]; try reflexivity.
    destruct (N.ltb_spec 0 (h_alloc st)); [|reflexivity]. destruct (u_is_unused st (h_alloc st)) as [[|]| | |]; cbn [obind negb]; try reflexivity.
    destruct (u_unused_detach lops st (h_alloc st)); cbn [obind]; try reflexivity. rewrite w_sub by lia.
    rewrite csub_ok by lia. cbn [obind]. apply IH.
  Qed.
  Lemma link_pos st i k : u_get_link cf st i = Val (Some k) -> 1 <= i.
  Proof.
    unfold u_get_link, u_exists. destruct (u_header st); cbn [obind]; try discriminate. rewrite (ok_istart _ CF).
    destruct (N.leb_spec 1 i); [auto|cbn [andb obind]; discriminate].
  Qed.
  Lemma w_delete_same st H (h : whandler H) q x : wu_delete cf tops lops h q st x = u_delete cf tops lops h q st x.
  Proof.
    unfold wu_delete, u_delete. destruct (qget q 0) as [i| | |]; cbn [obind]; try reflexivity.
    destruct (u_get_link cf st i) as [[k|]| | |] eqn:E; cbn [obind]; try reflexivity. apply link_pos in E.
    match goal with |- obind ?m _ = _ => destruct m as [[[st1 u] [f|e]]| | |]; cbn [obind]; try reflexivity end.
    destruct (u_header st1); cbn [obind]; try reflexivity. destruct (N.compare_spec i (h_alloc st1)); try reflexivity.
    rewrite w_sub by lia. rewrite csub_ok by lia. cbn [obind]. now rewrite w_trim_same.
  Qed.
  Lemma open_reserved m st : u_open cf m = Val (Ok st) -> h_reserved st <> 0.
  Proof.
    unfold u_open. destruct (u_alloc_mem m (c_page cf)) as [m1|]; [|discriminate]. destruct (u_header m1); cbn [obind]; try discriminate.
    unfold u_alloc_mem. destruct (u_orc m1 0%nat _); [|discriminate].
    match goal with |- obind (u_header ?m) _ = _ -> _ => destruct (u_header m); cbn [obind]; try discriminate end. cbn [u_len].
    pose proof (ok_step _ CF). rewrite csub_ok by lia. cbn [obind]. unfold ctry.
    match goal with |- obind (if ?b then _ else _) _ = _ -> _ => destruct b; cbn [obind]; try discriminate end.
    intros E. injection E as <-. unfold h_reserved, set_reserved. cbn [u_data set_data]. rewrite upd_same. cbn [snd]. lia.
  Qed.
End Unit.

(** Every modifying call, and reading and visiting links, on every state of the single-memory
    store, also of damaged files: the same outcome, be it a value, a panic or worse. *)
Lemma L_C103_unit cf tops lops st : let U := unit_links cf tops lops in let W := wunit_links cf tops lops in cfg_ok cf ->
  (h_reserved st <> 0 -> forall H (h : whandler H) q x, li_create W H h q st x = li_create U H h q st x) /\
  (forall H (h : whandler H) q ch x, li_update W H h q ch st x = li_update U H h q ch st x) /\
  (forall H (h : whandler H) q x, li_delete W H h q st x = li_delete U H h q st x) /\
  (forall H (h : rhandler H) q x, li_each W H h q st x = li_each U H h q st x) /\
  (forall i, li_get W st i = li_get U st i).
Proof.
  intros U W CF. split; [|split; [|split; [|split]]]; try reflexivity.
  - intros R H h q x. now apply w_create_same.
  - intros H h q x. now apply w_delete_same.
Qed.
(** Opening makes the condition true of any file, and it stays so in use and after interruptions. *)
Lemma L_C103_reserved cf tops lops : unit_env cf tops lops ->
  (forall m st, u_open cf m = Val (Ok st) -> h_reserved st <> 0) /\
  (forall st L C, life cf tops lops st L C -> h_reserved st <> 0).
Proof.
  intros ENV. split.
  - intros m st. apply open_reserved. apply ENV.
  - intros st L C HL. destruct (life_inv cf tops lops ENV st L C HL) as (a & P & Q & (R & _) & _). pose proof (wr_res1 _ _ _ _ _ R). lia.
Qed.

(** A creation of the two-memory store, whatever tree each link is in: the same in both builds. *)
Lemma ws_create_same cf tops lops st a sP tP : unit_env cf tops lops -> smem cf st a sP tP -> both_or_none (s_orc st) ->
  forall H (h : whandler H) q x, ws_create cf tops lops h q st x = s_create cf tops lops h q st x.
Proof.
  intros ENV R B H h q x. pose proof ENV as (CF & _ & LOK). destruct (below_split cf tops lops) as (_ & BC & _).
  assert (OK : forall v, s_create cf tops lops h q st x = Val v -> ws_create cf tops lops h q st x = s_create cf tops lops h q st x).
  { intros v E. rewrite E. exact (BC H h q st x v E). }
  destruct (m_create cf tops lops ENV st a sP tP q R B) as [(_ & _ & F)|[(_ & _ & st2 & _ & _ & _ & F)|[(F1 & F2 & F3 & P)|(st2 & _ & _ & F)]]];
    [eapply OK, F|eapply OK, F| |eapply OK, F].
  pose proof (ok_iend _ CF). pose proof (ok_any _ CF). pose proof (ok_step _ CF). pose proof (sm_res1 _ _ _ _ _ R). pose proof (sm_res2 _ _ _ _ _ R).
  destruct (a_free a) as [|y fl] eqn:EF.
  - assert (NX : a_next a = a_top a + 1) by (unfold a_next; now rewrite EF).
    destruct (N.le_gt_cases (sh_reserved st - 1) (a_top a)) as [GR|GR].
    + unfold ws_create, s_create. rewrite (s_header_ok _ _ _ _ _ R). cbn [obind].
      rewrite (sm_first _ _ _ _ _ R), EF, (ok_null _ CF), (sm_alloc _ _ _ _ _ R). cbn [hd N.eqb].
      destruct (N.leb_spec (c_iend cf) (a_top a)); [lia|]. unfold s_grow, ws_grow. rewrite (sm_alloc _ _ _ _ _ R).
      rewrite w_sub, csub_ok by lia. cbn [obind]. destruct (N.leb_spec (sh_reserved st - 1) (a_top a)); [|lia].
      unfold s_alloc_mem. destruct (s_orc st 0%nat (s_dcap st + c_step cf) (s_ilen st + c_step cf)); try reflexivity.
      unfold s_header. cbn [s_ilen]. destruct (N.ltb_spec 0 (s_ilen st + c_step cf)); [|lia]. cbn [obind].
      unfold ctry. destruct (N.leb_spec (s_ilen st + c_step cf) (c_tmax cf)); [lia|reflexivity].
    + exfalso. specialize (P H h x).
      assert (R1 : smem cf (s_set_alloc st (a_top a + 1)) (a_create a) sP tP) by (apply m_raise; auto; lia).
      unfold s_create in P. rewrite (s_header_ok _ _ _ _ _ R) in P. cbn [obind] in P.
      rewrite (sm_first _ _ _ _ _ R), EF, (ok_null _ CF), (sm_alloc _ _ _ _ _ R) in P. cbn [hd N.eqb] in P.
      destruct (N.leb_spec (c_iend cf) (a_top a)); [lia|]. unfold s_grow in P. rewrite (sm_alloc _ _ _ _ _ R) in P.
      rewrite csub_ok in P by lia. cbn [obind] in P. destruct (N.leb_spec (sh_reserved st - 1) (a_top a)); [lia|].
      cbn [obind] in P. rewrite (sm_alloc _ _ _ _ _ R) in P. rewrite cadd_ok in P by lia. cbn [obind] in P.
      rewrite <- NX in *. rewrite (m_created cf tops lops ENV _ _ _ _ _ R R1) in P. cbn [obind] in P.
      destruct (h x nothing (mkLink (a_next a) 0 0)); discriminate.
  - exfalso. specialize (P H h x). assert (NX : a_next a = y) by (unfold a_next; now rewrite EF).
    assert (HI : In y (a_free a)) by (rewrite EF; now left).
    assert (Y0 : y <> 0) by (apply (sm_free _ _ _ _ _ R) in HI; lia).
    destruct (s_unused_detach_ok cf lops LOK _ _ _ _ y R HI) as (st1 & E1 & R1 & M1).
    assert (R2 : smem cf st1 (a_create a) sP tP).
    { pose proof (sm_nodup _ _ _ _ _ R) as ND. rewrite EF in ND. inversion ND; subst.
      eapply smem_ext; [| | |exact R1]; unfold a_create; rewrite EF; cbn [a_top a_free a_map]; auto. symmetry. now apply lremove_head. }
    unfold s_create in P. rewrite (s_header_ok _ _ _ _ _ R) in P. cbn [obind] in P.
    rewrite (sm_first _ _ _ _ _ R), EF, (ok_null _ CF) in P. cbn [hd] in P.
    destruct (N.eqb_spec y 0); [contradiction|]. rewrite E1 in P. cbn [obind] in P.
    rewrite <- NX in *. rewrite (m_created cf tops lops ENV _ _ _ _ _ R R2) in P. cbn [obind] in P.
    destruct (h x nothing (mkLink (a_next a) 0 0)); discriminate.
Qed.

(** Free use of the two-memory store: creations, and the deletions its client may ask for. *)
Lemma L_C103_free_use cf tops lops st Ms Mt : let S := split_links cf tops lops in let W := wsplit_links cf tops lops in
  unit_env cf tops lops -> slife cf tops lops st Ms Mt ->
  (forall H (h : whandler H) q x, li_create W H h q st x = li_create S H h q st x) /\
  (forall i, no_link S st i \/ (may_touch cf tops lops st Ms Mt i /\
       forall j s t, is_link S st j s t -> j <> i -> (s = i /\ ~ Ms j) \/ (t = i /\ ~ Mt j) -> separable S st j) ->
     forall H (h : whandler H) x, li_delete W H h [i] st x = li_delete S H h [i] st x).
Proof.
  intros S W ENV HL. destruct (below_split cf tops lops) as (_ & _ & _ & _ & BD & _). split.
  - destruct (slife_inv cf tops lops ENV _ _ _ HL) as (a & sP & tP & K).
    exact (ws_create_same cf tops lops st a sP tP ENV (xi_mem _ _ _ _ _ _ _ K) (xi_orc _ _ _ _ _ _ _ K)).
  - intros i P H h x. destruct (slife_inv cf tops lops ENV _ _ _ HL) as (a & sP & tP & K). destruct (a_map a i) as [[os ot]|] eqn:E.
    + assert (LI : is_link S st i os ot) by now apply (y_link cf tops lops ENV _ _ _ _ _ _ _ _ _ K).
      destruct P as [P|[P1 P2]]; [apply (y_none cf tops lops ENV _ _ _ _ _ _ _ K) in P; congruence|].
      destruct (L_C83_delete_partial cf tops lops st Ms Mt i os ot ENV HL LI P1 P2) as (st' & _ & _ & _ & F).
      subst S W; rewrite (F H h x); apply BD, F.
    + apply (y_none cf tops lops ENV _ _ _ _ _ _ _ K) in E. destruct (L_C83_missing cf tops lops st Ms Mt i ENV HL E) as [_ F].
      subst S W; rewrite (F H h x); apply BD, F.
Qed.
(** And after interruptions. *)
Lemma L_C103_interrupted cf tops lops st D sP tP : let S := split_links cf tops lops in let W := wsplit_links cf tops lops in
  unit_env cf tops lops -> clife cf tops lops st D sP tP ->
  (forall H (h : whandler H) q x, li_create W H h q st x = li_create S H h q st x) /\
  (forall i, no_link S st i \/ (exists os ot, may_delete D sP tP i os ot) ->
     forall H (h : whandler H) x, li_delete W H h [i] st x = li_delete S H h [i] st x).
Proof.
  intros S W ENV HL. destruct (below_split cf tops lops) as (_ & _ & _ & _ & BD & _). split.
  - destruct (clife_inv cf tops lops ENV _ _ _ _ HL) as (B & top & fr & R). exact (ws_create_same cf tops lops st _ sP tP ENV R B).
  - intros i [P|(os & ot & P)] H h x.
    + destruct (L_C86_missing cf tops lops st D sP tP i ENV HL P) as [_ F]. subst S W; rewrite (F H h x); apply BD, F.
    + destruct (L_C86_delete_partial cf tops lops st D sP tP i os ot ENV HL P) as (st' & n & _ & _ & _ & _ & _ & F).
      subst S W; rewrite (F H h x); apply BD, F.
Qed.

(** A header without reserved links: a checked build panics, a release build hands out a link
    outside the memory, which cannot even be read. *)
Definition ex_unreserved : ust := mkU 4 (fun _ _ => true) (fun i => if i =? 0 then (3, 0) else (1, 1)) (fun _ => nd0) (fun _ => nd0).
Definition ex_create_of {T} (I : LinksI T) (st : T) := li_create I unit (fun u _ _ => (u, Continue)) [] st tt.
Lemma L_C103_condition : h_reserved ex_unreserved = 0 /\
  ex_create_of (unit_links ex_cf ref_tree_ops ref_list_ops) ex_unreserved = Panic /\
  exists st', ex_create_of (wunit_links ex_cf ref_tree_ops ref_list_ops) ex_unreserved = Val (st', tt, Ok Continue) /\
    h_alloc st' = 4 /\ u_len st' = 4 /\ li_get (wunit_links ex_cf ref_tree_ops ref_list_ops) st' 4 = UB.
Proof.
  split; [reflexivity|]. split; [vm_compute; reflexivity|]. eexists. split; [vm_compute; reflexivity|]. split; [reflexivity|]. split; [reflexivity|]. vm_compute. reflexivity.
Qed.
(** The hypotheses are met: by a damaged file on which counting differs, by a misfiled link, and
    after an interruption that lost a link. *)
Definition ex_damaged : ust := mkU 8 (fun _ _ => true) (fun i => if i =? 0 then (3, 7) else (1, 1)) (fun i => if i =? 0 then mkNd 5 0 1 else nd0) (fun _ => nd0).
Lemma L_C103_nonvacuous : unit_env ex_cf ref_tree_ops ref_list_ops /\
  (let U := unit_links ex_cf ref_tree_ops ref_list_ops in let W := wunit_links ex_cf ref_tree_ops ref_list_ops in
   h_reserved ex_damaged <> 0 /\ li_count U ex_damaged [] = Panic /\ li_count W ex_damaged [] = Val (c_tmax ex_cf - 1) /\
   exists st', ex_create_of W ex_damaged = Val (st', tt, Ok Continue) /\ h_alloc st' = 4) /\
  (exists st Ms Mt, slife ex_cf ref_tree_ops ref_list_ops st Ms Mt /\ Ms 1 /\ is_link ex_S st 1 3 3 /\
     linked ex_S st 3 /\ may_touch ex_cf ref_tree_ops ref_list_ops st Ms Mt 3 /\
     forall j s t, is_link ex_S st j s t -> j <> 3 -> (s = 3 /\ ~ Ms j) \/ (t = 3 /\ ~ Mt j) -> separable ex_S st j) /\
  (exists st D sP tP, clife ex_cf ref_tree_ops ref_list_ops st D sP tP /\ D 2 = Some (3, 1) /\ no_link ex_S st 2 /\ may_delete D sP tP 1 1 1).
Proof.
  destruct L_C83_nonvacuous as ((st & Ms & Mt & HL & M1 & _ & L1 & _ & _ & L3 & T3 & S3 & _) & _).
  destruct L_C86_nonvacuous as (st2 & D & sP & tP & HC & D2 & _ & _ & _ & _ & N2 & _ & MD & _).
  split; [exact ex_env|]. split; [|split].
  - cbv zeta. split; [discriminate|]. split; [vm_compute; reflexivity|]. split; [vm_compute; reflexivity|]. eexists. split; [vm_compute; reflexivity|reflexivity].
  - exists st, Ms, Mt. split; [exact HL|]. split; [exact M1|]. split; [exact L1|]. split; [exists 0, 0; exact L3|]. split; [exact T3|exact S3].
  - exists st2, D, sP, tP. split; [exact HC|]. split; [exact D2|]. split; [exact N2|exact MD].
Qed.
