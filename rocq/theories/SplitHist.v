(** Histories of the two-memory store. *)
From Coq Require Import NArith List Bool Lia Permutation.
From Verif Require Import Base Trees Lists Spec Iface UnitModel UnitInv UnitOps LinkModel SplitModel Forest
  SplitInv SplitReads SplitOps SplitWrites SplitLinks Doublets DoubletsOK Obs Hist Claims UnitHist TreeImpl.
Import ListNotations.
Open Scope N_scope.

(** A store opened over empty memories; the oracle decides every later allocation. *)
Definition s_start (cf : cfg) (st : sst) : Prop :=
  exists orc, both_or_none orc /\ s_open cf (s_blank orc) = Val (Ok st).

(** The memories of a store after it was dropped, with a new allocation oracle. *)
Definition s_persist (st : sst) (orc : nat -> N -> N -> grown) : sst :=
  mkS 0 0 0 orc (s_data st) (s_rs st) (s_is st) (s_rt st) (s_it st).

Section Discipline.
  Variable S : Type.
  Variable I : LinksI S.

  (** No link refers to [i]. *)
  Definition unreferred (st : S) (i : N) : Prop := forall x s t, is_link I st x s t -> s <> i /\ t <> i.

  (** The index given by a creation is not referred to. *)
  Definition s_okc (st st' : S) : Prop := forall i, no_link I st i -> linked I st' i -> unreferred st i.
  (** An update of a link neither gives it a source without a target, nor lets it refer to
      itself while it has a source. *)
  Definition s_oku (st : S) (i s t : N) : Prop :=
    no_link I st i \/
    (separable I st i /\ (t = 0 -> s = 0) /\ (s = i \/ t = i -> exists ot, is_link I st i 0 ot)).
  (** A deleted link and the links that refer to it share their pairs with no other link. *)
  Definition s_okd (st : S) (i : N) : Prop :=
    no_link I st i \/
    (separable I st i /\ forall x s t, is_link I st x s t -> x <> i -> s = i \/ t = i -> separable I st x).
  Lemma s_okd_distinct st i : distinct_pairs I st -> s_okd st i.
  Proof. intros D. right. split; [|intros x s t _ _ _]; now apply distinct_separable. Qed.
End Discipline.
Arguments unreferred {S}. Arguments s_okc {S}. Arguments s_oku {S}. Arguments s_okd {S}.

(** Opening the memories again.  Excluded are stores whose last link is a multiple of the
    step (and fills at least a page). *)
Definition s_reopen (cf : cfg) (tops : tree_ops) (lops : list_ops) (st st' : sst) : Prop :=
  (forall i, linked (split_links cf tops lops) st i ->
     (forall j, linked (split_links cf tops lops) st j -> j <= i) ->
     i < c_page cf \/ i < c_step cf \/ i mod c_step cf <> 0) /\
  exists orc, both_or_none orc /\ s_open cf (s_persist st orc) = Val (Ok st').

Definition s_hist (cf : cfg) (tops : tree_ops) (lops : list_ops) : sst -> list N -> Prop :=
  let I := split_links cf tops lops in
  histc I (s_start cf) (s_reopen cf tops lops) (s_oku I) (s_okd I) (s_okc I).

Section SH.
  Variables (cf : cfg) (tops : tree_ops) (lops : list_ops).
  Hypothesis ENV : unit_env cf tops lops.
  Notation SL := (split_links cf tops lops).

  Lemma f_cf : cfg_ok cf. Proof. apply ENV. Qed.
  Lemma f_ok : links_ok cf (split_spec cf) SL (srep cf).
  Proof. destruct ENV as (A & B & C). now apply split_links_ok. Qed.

  Lemma ob_unref st a i : srep cf st a -> unreferred SL st i <-> unreferenced a i.
  Proof.
    intros K. split.
    - intros U x s t M. apply (U x). now apply (ob_link cf _ _ _ f_ok _ _ _ _ _ K).
    - intros U x s t M. apply (U x). now apply (ob_link cf _ _ _ f_ok _ _ _ _ _ K) in M.
  Qed.
  Lemma ob_oku st a i s t : srep cf st a -> a_map a i <> None -> s_oku SL st i s t <-> split_update_ok a i s t.
  Proof.
    intros K M. unfold s_oku, split_update_ok. rewrite (ob_sep cf _ _ _ f_ok _ _ _ K).
    rewrite (ob_none cf _ _ _ f_ok _ _ _ K). split.
    - intros [C|(D & V & X)]; [contradiction|]. split; auto. split; auto. intros E. destruct (X E) as (ot & L).
      exists ot. now apply (ob_link cf _ _ _ f_ok _ _ _ _ _ K).
    - intros (D & V & X). right. split; auto. split; auto. intros E. destruct (X E) as (ot & L).
      exists ot. now apply (ob_link cf _ _ _ f_ok _ _ _ _ _ K).
  Qed.
  Lemma ob_okd st a i : srep cf st a -> a_map a i <> None -> s_okd SL st i <-> split_delete_ok a i.
  Proof.
    intros K M. unfold s_okd, split_delete_ok. rewrite (ob_none cf _ _ _ f_ok _ _ _ K).
    rewrite (ob_sep cf _ _ _ f_ok _ _ _ K). split.
    - intros [C|[D U]]; [contradiction|]. split; auto. intros x s t MX NE E.
      apply (ob_sep cf _ _ _ f_ok _ _ _ K). eapply U; eauto. now apply (ob_link cf _ _ _ f_ok _ _ _ _ _ K).
    - intros [D U]. right. split; auto. intros x s t L NE E.
      apply (ob_sep cf _ _ _ f_ok _ _ _ K). apply (ob_link cf _ _ _ f_ok _ _ _ _ _ K) in L. eapply U; eauto.
  Qed.

  (** What a creation that returned did. *)
  Lemma s_create_pres st a H (h : whandler H) q x st' x' r : srep cf st a ->
    li_create SL H h q st x = Val (st', x', r) -> s_okc SL st st' -> srep cf st' a \/ srep cf st' (a_create a).
  Proof.
    intros K E OC. cbn in E. destruct ENV as (CF & _ & LOK).
    destruct (s_create_ok cf CF tops lops LOK st a q K) as
      [(_ & _ & _ & _ & P)|[[_ F]|[(_ & _ & st2 & K' & F)|(_ & st2 & K' & O & C)]]].
    - rewrite P in E. discriminate.
    - rewrite F in E. injection E as <- _ _. auto.
    - rewrite F in E. injection E as <- _ _. auto.
    - rewrite C in E. injection E as <- _ _. right. split; auto. pose proof K as [(R & W & V) _].
      apply sinv_create; auto. apply (ob_unref _ _ _ K). apply OC.
      + apply (ob_none cf _ _ _ f_ok _ _ _ K). now apply a_next_none.
      + exists 0, 0. unfold is_link. cbn [li_get split_links].
        rewrite (s_get_link_ok cf CF st2 _ _ _ (a_next a) K') by (apply all_placed_create, all_placed_tpl; auto).
        unfold olink. rewrite a_create_map, upd_same. reflexivity.
  Qed.

  Lemma s_open_cond m st : s_open cf m = Val (Ok st) ->
    let c := s_capacity cf (sh_alloc m) in
    c - 1 <= c_tmax cf /\ s_orc m 0%nat (c_page cf) (c_page cf) = Grown /\ s_orc m 1%nat c c = Grown.
  Proof.
    intros E c. unfold s_open, s_alloc_mem in E.
    destruct (s_orc m 0%nat (c_page cf) (c_page cf)) eqn:O1; try (cbn in E; discriminate).
    cbn [negb] in E. unfold s_header at 1 in E. cbn [s_ilen] in E. destruct (0 <? c_page cf); [|discriminate].
    cbn [obind s_orc s_dcap s_ilen] in E. change (sh_alloc (mkS _ _ _ _ _ _ _ _ _)) with (sh_alloc m) in E.
    fold (s_capacity cf (sh_alloc m)) in E. fold c in E.
    destruct (s_orc m 1%nat c c) eqn:O2; try (cbn in E; discriminate).
    cbn [negb] in E. unfold s_header in E. cbn [s_ilen s_dcap] in E. pose proof (s_capacity_step cf f_cf (sh_alloc m)) as CS. fold c in CS.
    pose proof (ok_step _ f_cf). destruct (N.ltb_spec 0 c); [|discriminate]. cbn [obind] in E.
    rewrite csub_ok in E by lia. cbn [obind] in E. unfold ctry in E.
    destruct (N.leb_spec (c - 1) (c_tmax cf)); [auto|discriminate].
  Qed.

  Lemma both_shift orc : both_or_none orc -> both_or_none (fun k => orc (S (S k))).
  Proof. intros B k. apply B. Qed.

  Lemma s_start_inv st : s_start cf st -> srep cf st a_empty.
  Proof.
    intros (orc & B & E). destruct (s_open_cond _ _ E) as (T & O1 & O2).
    destruct (s_open_blank cf f_cf orc T O1 O2) as (st' & E' & K & _ & O).
    assert (st' = st) as -> by congruence. split; auto. rewrite O. now apply both_shift.
  Qed.

  Lemma s_reopen_inv st st' a : srep cf st a -> s_reopen cf tops lops st st' -> srep cf st' a.
  Proof.
    intros K (LT & orc & B & E). pose proof (lo_wf _ _ _ _ f_ok _ _ K) as W. pose proof (ok_step _ f_cf).
    assert (TL : a_top a < s_capacity cf (a_top a)).
    { destruct (wf_top _ W) as [T|T]; [pose proof (s_capacity_step cf f_cf (a_top a)); lia|].
      apply (s_capacity_gt cf f_cf). apply LT; [now apply (ob_linked cf _ _ _ f_ok _ _ _ K)|].
      intros j J. apply (ob_linked cf _ _ _ f_ok _ _ _ K) in J. apply (wf_dom _ W) in J. lia. }
    assert (HA : sh_alloc (s_persist st orc) = a_top a).
    { destruct K as [(R & _) _]. exact (sm_alloc _ _ _ _ _ R). }
    destruct (s_open_cond _ _ E) as (T & O1 & O2). rewrite HA in T, O2.
    destruct K as [K _].
    destruct (s_open_ok cf f_cf (s_persist st orc) st a) as (st2 & E2 & K2 & _ & O); auto.
    - repeat split; auto.
    - assert (st2 = st') as -> by congruence. split; auto. rewrite O. now apply both_shift.
  Qed.

  Theorem s_hist_inv st d : s_hist cf tops lops st d -> exists a, srep cf st a /\ dels_ok (a_free a) d.
  Proof.
    apply (histc_inv cf (split_spec cf) SL (srep cf)).
    - exact f_ok.
    - exact s_start_inv.
    - intros. eapply s_reopen_inv; eauto.
    - intros. eapply ob_oku; eauto.
    - intros. eapply ob_okd; eauto.
    - intros. eapply s_create_pres; eauto.
  Qed.

  (** Representation together with a history. *)
  Definition sh (st : sst) (a : astate) : Prop := srep cf st a /\ exists d, s_hist cf tops lops st d.

  Lemma sh_links_ok : links_ok cf (split_spec cf) SL sh.
  Proof.
    pose proof f_ok as OK.
    constructor.
    - intros st a [K _]. eapply lo_wf; eauto.
    - intros st a [K _]. eapply lo_iend; eauto.
    - intros st a i [K _]. eapply lo_get; eauto.
    - intros st a q [K _]. eapply lo_query; eauto.
    - intros st a q ch i s t [K (d & HH)] Q1 Q2 Q3 M D.
      destruct (lo_update _ _ _ _ OK _ _ _ _ _ _ _ K Q1 Q2 Q3 M D) as (st' & b & K' & C).
      exists st', b. split; auto. split; auto. exists d.
      eapply (histc_update _ _ _ _ _ _ st d unit (fun u _ _ => (u, Continue)) q ch i s t tt); eauto.
      eapply ob_oku; eauto.
    - intros st a q ch i s t [K _]. eapply lo_update_none; eauto.
    - intros st a q i s t [K (d & HH)] Q M D.
      destruct (lo_delete _ _ _ _ OK _ _ _ _ _ _ K Q M D) as (st' & K' & C).
      exists st'. split; auto. split; auto. exists (i :: d).
      eapply (histc_delete _ _ _ _ _ _ st d unit (fun u _ _ => (u, Continue)) q i tt); eauto.
      eapply ob_okd; eauto. congruence.
    - intros st a q i [K _]. eapply lo_delete_none; eauto.
    - intros st a q [K (d & HH)] SC.
      destruct (lo_create _ _ _ _ OK _ _ q K SC) as [F|[(K1 & K2 & st' & K3 & K4)|(K1 & st' & K2 & K3)]]; auto.
      + right; left. split; auto. split; auto. exists st'. split; auto. split; auto. exists d.
        eapply (histc_create _ _ _ _ _ _ st d unit (fun u _ _ => (u, Continue)) q tt st' tt (Err AllocFailed)); [exact HH|apply K4|].
        intros i N1 N2. apply (ob_none cf _ _ _ OK _ _ _ K) in N1. apply (ob_linked cf _ _ _ OK _ _ _ K3) in N2. congruence.
      + right; right. split; auto. exists st'. split; auto. split; auto. exists d.
        eapply (histc_create _ _ _ _ _ _ st d unit (fun u _ _ => (u, Continue)) q tt st' tt (Ok Continue)); [exact HH|apply K3|].
        intros i N1 N2. apply (ob_none cf _ _ _ OK _ _ _ K) in N1. apply (ob_linked cf _ _ _ OK _ _ _ K2) in N2.
        apply (ob_unref _ _ _ K). rewrite a_create_map in N2.
        destruct (N.eq_dec i (a_next a)) as [->|NE]; [apply SC|]. rewrite upd_other in N2 by auto. congruence.
  Qed.

  Lemma sh_hist st d : s_hist cf tops lops st d -> exists a, sh st a /\ dels_ok (a_free a) d.
  Proof.
    intros HH. destruct (s_hist_inv st d HH) as (a & K & D). exists a. split; auto. split; auto. eauto.
  Qed.
End SH.

(** ** Running commands, for the concrete examples *)
Definition unrefb (a : astate) (i : N) : bool :=
  forallb (fun k => negb (l_source k =? i) && negb (l_target k =? i)) (alinks a).
Definition usersb (a : astate) (i : N) : bool :=
  forallb (fun k => (l_index k =? i) || negb ((l_source k =? i) || (l_target k =? i)) || detb a (l_index k)) (alinks a).
Lemma usersb_ok a i : awf a -> usersb a i = true -> users_detachable a i.
Proof.
  intros W U x s t M NE E. unfold usersb in U. rewrite forallb_forall in U.
  assert (K := M). apply (in_alinks a x s t W) in K. specialize (U _ K). cbn in U.
  destruct (N.eqb_spec x i); [contradiction|]. apply (detb_ok a x W).
  destruct (N.eqb_spec s i), (N.eqb_spec t i); cbn in U; auto. tauto.
Qed.
Lemma unrefb_ok a i : awf a -> unrefb a i = true -> unreferenced a i.
Proof.
  intros W U x s t M. apply (in_alinks a x s t W) in M. unfold unrefb in U. rewrite forallb_forall in U.
  specialize (U _ M). cbn [l_index l_source l_target] in U.
  destruct (N.eqb_spec s i), (N.eqb_spec t i); try discriminate. auto.
Qed.

Definition scheck1 (a : astate) (c : cmd) : bool :=
  match c with
  | Cr => unrefb a (a_next a)
  | Up i s t =>
      detb a i && (negb (t =? 0) || (s =? 0)) &&
      (negb ((s =? i) || (t =? i)) || match a_map a i with Some (os, _) => os =? 0 | None => false end)
  | De i =>
      match a_map a i with
      | Some (s, t) => detb a i && usersb a i
      | None => false
      end
  end.
Fixpoint scheck (a : astate) (l : list cmd) : bool :=
  match l with [] => true | c :: l' => scheck1 a c && scheck (astep a c) l' end.

Section Ex.
  Variables (cf : cfg) (tops : tree_ops) (lops : list_ops).
  Hypothesis ENV : unit_env cf tops lops.
  Notation SL := (split_links cf tops lops).

  Lemma scheck_upd a i s t : awf a -> scheck1 a (Up i s t) = true -> a_map a i <> None /\ split_update_ok a i s t.
  Proof.
    intros W A1. cbn [scheck1] in A1. apply andb_true_iff in A1 as [A1 A3]. apply andb_true_iff in A1 as [A1 A4].
    destruct (detb_ok _ _ W A1) as [M D]. split; auto. split; auto. split.
    - intros ->. rewrite N.eqb_refl in A4. cbn in A4. now apply N.eqb_eq.
    - intros X. destruct (a_map a i) as [[os ot]|]; [|congruence]. exists ot.
      assert (((s =? i) || (t =? i)) = true) as EX.
      { apply orb_true_iff. destruct X as [->| ->]; rewrite N.eqb_refl; auto. }
      rewrite EX in A3. cbn in A3. apply N.eqb_eq in A3. now subst.
  Qed.
  Lemma scheck_del a i : awf a -> scheck1 a (De i) = true -> exists s t, a_map a i = Some (s, t) /\ split_delete_ok a i.
  Proof.
    intros W A1. cbn [scheck1] in A1. destruct (a_map a i) as [[s t]|] eqn:EM; [|congruence]. exists s, t. split; auto.
    apply andb_true_iff in A1 as [A1 A2]. split; [now apply detb_ok|now apply usersb_ok].
  Qed.

  Lemma srun_ok l : forall st a d st', s_hist cf tops lops st d -> srep cf st a -> scheck a l = true ->
    run SL l st = Some st' -> exists d', s_hist cf tops lops st' d' /\ srep cf st' (arun a l).
  Proof.
    pose proof (f_ok _ _ _ ENV) as IOK.
    induction l as [|c l IH]; intros st a d st' HH K A E.
    - injection E as <-. exists d. auto.
    - cbn [scheck] in A. apply andb_true_iff in A as [A1 A2]. cbn [run] in E.
      destruct (run1 SL c st) as [st1|] eqn:E1; [|discriminate].
      assert (ST : exists d', s_hist cf tops lops st1 d' /\ srep cf st1 (astep a c)).
      { pose proof (lo_wf _ _ _ _ IOK _ _ K) as W. destruct c as [|i s t|i]; unfold run1 in E1; cbn [astep] in *.
        - destruct (li_create SL unit cont [] st tt) as [[[st2 u] [f|e]]| | |] eqn:EC; try discriminate.
          injection E1 as ->.
          assert (UR : unreferenced a (a_next a)) by now apply unrefb_ok.
          assert (K1 : srep cf st1 (a_create a)).
          { destruct ENV as (CF & _ & LOK). cbn in EC.
            destruct (s_create_ok cf CF tops lops LOK st a [] K) as
              [(_ & _ & _ & _ & P)|[[_ F]|[(_ & _ & st2 & K' & F)|(_ & st2 & K' & O & C)]]].
            + rewrite P in EC. discriminate.
            + rewrite F in EC. discriminate.
            + rewrite F in EC. discriminate.
            + rewrite C in EC. injection EC as <- _ _. destruct K as [(_ & W' & V) _]. split; auto. now apply sinv_create. }
          exists d. split; auto. eapply histc_create; [exact HH|exact EC|].
          intros i N1 N2. apply (ob_none cf _ _ _ IOK _ _ _ K) in N1. apply (ob_linked cf _ _ _ IOK _ _ _ K1) in N2.
          apply (ob_unref cf tops lops ENV _ _ _ K). rewrite a_create_map in N2.
          destruct (N.eq_dec i (a_next a)) as [->|NE]; auto. rewrite upd_other in N2 by auto. congruence.
        - destruct (scheck_upd _ _ _ _ W A1) as [M SU].
          destruct (lo_update _ _ _ _ IOK _ _ [i] [i; s; t] i s t K eq_refl eq_refl eq_refl M SU) as (st2 & b & K2 & C).
          rewrite C in E1. injection E1 as <-. exists d. split; auto.
          apply (histc_update _ _ _ _ _ _ st d unit cont [i] [i; s; t] i s t tt st2 tt (Ok Continue)); auto; [|apply C].
          apply (ob_oku cf tops lops ENV _ _ _ _ _ K); auto.
        - destruct (scheck_del _ _ W A1) as (s & t & EM & SD).
          destruct (lo_delete _ _ _ _ IOK _ _ [i] i s t K eq_refl EM SD) as (st2 & K2 & C).
          rewrite C in E1. injection E1 as <-. exists (i :: d). split; auto.
          apply (histc_delete _ _ _ _ _ _ st d unit cont [i] i tt st2 tt Continue); auto; [|apply C].
          apply (ob_okd cf tops lops ENV _ _ _ K); auto. congruence. }
      destruct ST as (d1 & H1 & K1). cbn [arun fold_left]. eapply IH; eauto.
  Qed.
End Ex.

Definition ex_S : LinksI sst := split_links ex_cf ref_tree_ops ref_list_ops.
Definition all_grown : nat -> N -> N -> grown := fun _ _ _ => Grown.
Definition ex_sstart : sst :=
  match s_open ex_cf (s_blank all_grown) with Val (Ok st) => st | _ => s_blank all_grown end.
Definition ex_sst (l : list cmd) : sst :=
  match run ex_S l ex_sstart with Some st => st | None => ex_sstart end.

Lemma ex_s_start : s_start ex_cf ex_sstart.
Proof. exists all_grown. split; [intros ? ? ?; discriminate|]. unfold ex_sstart. vm_compute. reflexivity. Qed.

Lemma ex_sreach l : scheck a_empty l = true ->
  match run ex_S l ex_sstart with Some _ => true | None => false end = true ->
  exists d, s_hist ex_cf ref_tree_ops ref_list_ops (ex_sst l) d /\ srep ex_cf (ex_sst l) (arun a_empty l).
Proof.
  intros A E. unfold ex_sst. destruct (run ex_S l ex_sstart) as [st'|] eqn:ER; [|discriminate].
  eapply (srun_ok ex_cf ref_tree_ops ref_list_ops ex_env l ex_sstart a_empty []); auto.
  - apply histc_start. exact ex_s_start.
  - exact (s_start_inv _ _ _ ex_env _ ex_s_start).
Qed.

Lemma ex_sdistinct l : scheck a_empty l = true ->
  match run ex_S l ex_sstart with Some _ => true | None => false end = true ->
  dist_links (alinks (arun a_empty l)) = true -> distinct_pairs ex_S (ex_sst l).
Proof.
  intros A E D. destruct (ex_sreach l A E) as (d & _ & K). pose proof (f_ok _ _ _ ex_env) as OK.
  apply (ob_distinct ex_cf _ _ _ OK _ _ K). apply adistinct_dec; auto. eapply lo_wf; eauto.
Qed.

(** The three links of [ex3], a store in which 4 was deleted while 3 refers to it. *)
Definition ex4h : list cmd := [Cr; Cr; Cr; Cr; Cr; Up 1 1 1; Up 2 1 2; Up 3 2 4; Up 5 5 1; De 4].

Lemma ex3_sreach : exists d, s_hist ex_cf ref_tree_ops ref_list_ops (ex_sst ex3) d /\ distinct_pairs ex_S (ex_sst ex3) /\
  is_link ex_S (ex_sst ex3) 1 1 1 /\ is_link ex_S (ex_sst ex3) 2 1 2 /\ is_link ex_S (ex_sst ex3) 3 2 1.
Proof.
  destruct (ex_sreach ex3) as (d & HH & _); [vm_compute; reflexivity..|]. exists d. split; auto.
  split; [apply ex_sdistinct; vm_compute; reflexivity|]. unfold is_link. repeat (split; [vm_compute; reflexivity|]).
  vm_compute; reflexivity.
Qed.
Lemma ex4h_sreach : exists d, s_hist ex_cf ref_tree_ops ref_list_ops (ex_sst ex4h) d /\ distinct_pairs ex_S (ex_sst ex4h) /\
  no_link ex_S (ex_sst ex4h) 4 /\ is_link ex_S (ex_sst ex4h) 3 2 4 /\ is_link ex_S (ex_sst ex4h) 5 5 1.
Proof.
  destruct (ex_sreach ex4h) as (d & HH & _); [vm_compute; reflexivity..|]. exists d. split; auto.
  split; [apply ex_sdistinct; vm_compute; reflexivity|]. unfold is_link. repeat (split; [vm_compute; reflexivity|]).
  vm_compute; reflexivity.
Qed.
