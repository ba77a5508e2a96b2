(** Histories of the single-memory store. *)
From Coq Require Import NArith List Bool Lia Permutation.
From Verif Require Import Base Trees Lists Spec Iface UnitModel UnitInv UnitOps UnitLinks
  Doublets DoubletsOK Obs Hist Claims TreeImpl.
Import ListNotations.
Open Scope N_scope.

(** The assumptions about constants and external containers. *)
Definition unit_env (cf : cfg) (tops : tree_ops) (lops : list_ops) : Prop :=
  cfg_ok cf /\ tree_ops_ok tops /\ list_ops_ok lops.

(** A store opened over empty memory; the oracle decides every later allocation. *)
Definition u_start (cf : cfg) (st : ust) : Prop :=
  exists orc, u_open cf (u_blank orc) = Val (Ok st).

(** The memory of a store after it was dropped, with a new allocation oracle. *)
Definition u_persist (st : ust) (orc : nat -> N -> bool) : ust :=
  mkU 0 orc (u_data st) (u_src st) (u_tgt st).

(** Opening that memory again.  Stores that have grown to the step size are excluded
    here (see C13). *)
Definition u_reopen (cf : cfg) (tops : tree_ops) (lops : list_ops) (st st' : ust) : Prop :=
  (forall i, linked (unit_links cf tops lops) st i -> i < c_step cf) /\
  exists orc, u_open cf (u_persist st orc) = Val (Ok st').

(** The client does not update or delete a linked link while duplicate pairs exist. *)
Definition u_okc (cf : cfg) (tops : tree_ops) (lops : list_ops) (st : ust) (i : N) : Prop :=
  no_link (unit_links cf tops lops) st i \/ separable (unit_links cf tops lops) st i.

Definition u_hist (cf : cfg) (tops : tree_ops) (lops : list_ops) : ust -> list N -> Prop :=
  hist (unit_links cf tops lops) (u_start cf) (u_reopen cf tops lops)
    (fun st i _ _ => u_okc cf tops lops st i) (u_okc cf tops lops).

Section UH.
  Variables (cf : cfg) (tops : tree_ops) (lops : list_ops).
  Hypothesis ENV : unit_env cf tops lops.
  Notation U := (unit_links cf tops lops).

  Lemma e_cf : cfg_ok cf. Proof. apply ENV. Qed.
  Lemma e_ok : links_ok cf (unit_spec cf) U (uinv cf).
  Proof. destruct ENV as (A & B & C). now apply unit_links_ok. Qed.
  Lemma e_spu a i s t : detachable a i -> sp_update (unit_spec cf) a i s t. Proof. auto. Qed.
  Lemma e_spd a i : detachable a i -> sp_delete (unit_spec cf) a i. Proof. auto. Qed.
  Lemma e_spc st a : cfg_room cf -> uinv cf st a -> sp_create (unit_spec cf) a.
  Proof.
    intros RM K. cbn [sp_create unit_spec]. pose proof (lo_iend _ _ _ _ e_ok _ _ K) as LE. pose proof (room_step _ RM).
    unfold a_full, room. destruct (a_free a) as [|x l] eqn:E; [|right; left; discriminate].
    destruct (N.le_gt_cases (c_iend cf) (a_top a)); [left; auto|right; right; lia].
  Qed.
  Lemma e_spq st a q : uinv cf st a -> (length q <= 3)%nat ->
    (length q = 2%nat -> 2 * c_iend cf <= c_tmax cf) -> sp_query (unit_spec cf) a q.
  Proof.
    intros K LQ D. cbn [sp_query unit_spec]. split; auto. intros L2. specialize (D L2). pose proof (lo_iend _ _ _ _ e_ok _ _ K). lia.
  Qed.

  (** create preserves the representation whenever it returns *)
  Lemma u_create_pres st a H (h : whandler H) q x st' x' r : uinv cf st a ->
    li_create U H h q st x = Val (st', x', r) -> uinv cf st' a \/ uinv cf st' (a_create a).
  Proof.
    intros K E. cbn in E. destruct ENV as (CF & _ & LOK).
    destruct (u_create_ok cf CF lops LOK st a q K) as [(_ & _ & _ & _ & _ & _ & P)|[[_ F]|[(_ & _ & _ & K' & F)|(_ & st2 & K' & C)]]].
    - rewrite P in E. discriminate.
    - rewrite F in E. injection E as <- _ _. auto.
    - rewrite F in E. injection E as <- _ _. auto.
    - rewrite C in E. injection E as <- _ _. auto.
  Qed.

  Lemma u_open_cond m st : u_open cf m = Val (Ok st) -> h_alloc m < c_step cf ->
    c_step cf - 1 <= c_tmax cf /\ u_orc m 0%nat (c_page cf) = true /\ u_orc m 1%nat (c_step cf) = true.
  Proof.
    intros E LT. unfold u_open, u_alloc_mem in E. destruct (u_orc m 0%nat (c_page cf)) eqn:O1; [|discriminate].
    unfold u_header at 1 in E. cbn [u_len] in E. destruct (0 <? c_page cf); [|discriminate]. cbn [obind u_orc] in E.
    change (h_alloc (mkU (c_page cf) (fun k => u_orc m (S k)) (u_data m) (u_src m) (u_tgt m))) with (h_alloc m) in E.
    rewrite N.max_l in E by lia. destruct (u_orc m 1%nat (c_step cf)) eqn:O2; [|discriminate].
    unfold u_header in E. cbn [u_len] in E. destruct (0 <? c_step cf); [|discriminate]. cbn [obind] in E.
    pose proof (ok_step _ e_cf). rewrite csub_ok in E by lia. cbn [obind] in E. unfold ctry in E.
    destruct (N.leb_spec (c_step cf - 1) (c_tmax cf)); [auto|discriminate].
  Qed.

  Lemma u_start_inv st : u_start cf st -> uinv cf st a_empty.
  Proof.
    intros (orc & E). pose proof (ok_step _ e_cf).
    destruct (u_open_cond _ _ E) as (T & O1 & O2); [cbn; lia|].
    destruct (u_open_blank cf e_cf orc T O1 O2) as (st' & E' & K & _). congruence.
  Qed.

  Lemma u_reopen_inv st st' a : uinv cf st a -> u_reopen cf tops lops st st' -> uinv cf st' a.
  Proof.
    intros K (LT & orc & E).
    assert (TL : a_top a < c_step cf).
    { destruct (wf_top _ (lo_wf _ _ _ _ e_ok _ _ K)) as [T|T]; [pose proof (ok_step _ e_cf); lia|].
      apply LT. now apply (ob_linked cf _ _ _ e_ok _ _ _ K). }
    assert (HA : h_alloc (u_persist st orc) < c_step cf).
    { destruct K as [K _]. unfold h_alloc, u_persist. cbn [u_data]. pose proof (ur_alloc _ _ _ K) as A.
      unfold h_alloc in A. now rewrite A. }
    destruct (u_open_cond _ _ E HA) as (T & O1 & O2).
    destruct (u_open_ok cf e_cf (u_persist st orc) st a) as (st2 & E2 & K2 & _); auto.
    - repeat split; auto.
    - congruence.
  Qed.

  Theorem u_hist_inv st d : u_hist cf tops lops st d -> exists a, uinv cf st a /\ dels_ok (a_free a) d.
  Proof.
    apply (hist_inv cf (unit_spec cf) U (uinv cf)).
    - exact e_ok.
    - exact u_start_inv.
    - intros. eapply u_reopen_inv; eauto.
    - intros st0 a i s t K M [C|C]; [apply (ob_none cf _ _ _ e_ok _ _ _ K) in C; contradiction|].
      apply (ob_sep cf _ _ _ e_ok _ _ _ K) in C. exact C.
    - intros st0 a i K M [C|C]; [apply (ob_none cf _ _ _ e_ok _ _ _ K) in C; contradiction|].
      apply (ob_sep cf _ _ _ e_ok _ _ _ K) in C. exact C.
    - intros. eapply u_create_pres; eauto.
  Qed.

  (** Representation together with a history: composite operations are histories too. *)
  Definition uh (st : ust) (a : astate) : Prop := uinv cf st a /\ exists d, u_hist cf tops lops st d.

  Lemma uh_links_ok : links_ok cf (unit_spec cf) U uh.
  Proof.
    pose proof e_ok as OK.
    assert (OKC : forall st a i, uinv cf st a -> detachable a i -> u_okc cf tops lops st i).
    { intros st a i K D. right. now apply (ob_sep cf _ _ _ OK _ _ _ K). }
    constructor.
    - intros st a [K _]. eapply lo_wf; eauto.
    - intros st a [K _]. eapply lo_iend; eauto.
    - intros st a i [K _]. eapply lo_get; eauto.
    - intros st a q [K _]. eapply lo_query; eauto.
    - intros st a q ch i s t [K (d & HH)] Q1 Q2 Q3 M D.
      destruct (lo_update _ _ _ _ OK _ _ _ _ _ _ _ K Q1 Q2 Q3 M D) as (st' & b & K' & C).
      exists st', b. split; auto. split; auto. exists d.
      eapply (hist_update _ _ _ _ _ st d unit (fun u _ _ => (u, Continue)) q ch i s t tt); eauto.
    - intros st a q ch i s t [K _]. eapply lo_update_none; eauto.
    - intros st a q i s t [K (d & HH)] Q M D.
      destruct (lo_delete _ _ _ _ OK _ _ _ _ _ _ K Q M D) as (st' & K' & C).
      exists st'. split; auto. split; auto. exists (i :: d).
      eapply (hist_delete _ _ _ _ _ st d unit (fun u _ _ => (u, Continue)) q i tt); eauto.
    - intros st a q i [K _]. eapply lo_delete_none; eauto.
    - intros st a q [K (d & HH)] SC.
      destruct (lo_create _ _ _ _ OK _ _ q K SC) as [F|[(K1 & K2 & st' & K3 & K4)|(K1 & st' & K2 & K3)]]; auto.
      + right; left. split; auto. split; auto. exists st'. split; auto. split; auto. exists d.
        eapply (hist_create _ _ _ _ _ st d unit (fun u _ _ => (u, Continue)) q tt); eauto; apply K4.
      + right; right. split; auto. exists st'. split; auto. split; auto. exists d.
        eapply (hist_create _ _ _ _ _ st d unit (fun u _ _ => (u, Continue)) q tt); eauto; apply K3.
  Qed.

  Lemma uh_hist st d : u_hist cf tops lops st d -> exists a, uh st a /\ dels_ok (a_free a) d.
  Proof.
    intros HH. destruct (u_hist_inv st d HH) as (a & K & D). exists a. split; auto. split; auto. eauto.
  Qed.
End UH.

(** ** Running commands, for the concrete examples *)
Inductive cmd := Cr | Up (i s t : N) | De (i : N).
Definition cont : whandler unit := fun u _ _ => (u, Continue).

Definition run1 {S} (I : LinksI S) (c : cmd) (st : S) : option S :=
  match (match c with
         | Cr => li_create I unit cont [] st tt
         | Up i s t => li_update I unit cont [i] [i; s; t] st tt
         | De i => li_delete I unit cont [i] st tt
         end) with
  | Val (st', _, Ok _) => Some st'
  | _ => None
  end.
Fixpoint run {S} (I : LinksI S) (l : list cmd) (st : S) : option S :=
  match l with
  | [] => Some st
  | c :: l' => match run1 I c st with Some st' => run I l' st' | None => None end
  end.

(** Decidable distinctness of pairs in the abstract store. *)
Fixpoint pairs_in (p : N * N) (l : list link) : bool :=
  match l with
  | [] => false
  | k :: l' => ((l_source k =? fst p) && (l_target k =? snd p)) || pairs_in p l'
  end.
Fixpoint dist_links (l : list link) : bool :=
  match l with
  | [] => true
  | k :: l' => (((l_source k =? 0) && (l_target k =? 0)) || negb (pairs_in (l_source k, l_target k) l')) && dist_links l'
  end.

Lemma pairs_in_ok p l k : In k l -> l_source k = fst p -> l_target k = snd p -> pairs_in p l = true.
Proof.
  induction l as [|x l IH]; cbn [pairs_in]; [intros []|]. intros [->|K] E1 E2.
  - now rewrite E1, E2, !N.eqb_refl.
  - rewrite IH; auto. apply orb_true_r.
Qed.

Lemma dist_links_ok l : dist_links l = true -> forall j k, In j l -> In k l ->
  l_source j = l_source k -> l_target j = l_target k -> (l_source j, l_target j) <> (0, 0) -> j = k.
Proof.
  induction l as [|x l IH]; cbn [dist_links]; [intros _ ? ? []|]. intros D.
  apply andb_true_iff in D as [D1 D2]. specialize (IH D2).
  assert (HX : forall k, In k l -> l_source x = l_source k -> l_target x = l_target k ->
     (l_source x, l_target x) <> (0, 0) -> False).
  { intros k K E1 E2 NZ. apply orb_true_iff in D1 as [D1|D1].
    - apply andb_true_iff in D1 as [D1 D3]. apply N.eqb_eq in D1, D3. congruence.
    - rewrite (pairs_in_ok _ l k) in D1; auto; discriminate. }
  intros j k [->|J] [->|K] E1 E2 NZ; auto.
  - exfalso. eapply HX; eauto.
  - exfalso. apply (HX j J); auto. congruence.
Qed.

Lemma adistinct_dec a : awf a -> dist_links (alinks a) = true -> adistinct a.
Proof.
  intros W D i j [s t] Mi Mj NZ.
  apply (in_alinks a i s t W) in Mi. apply (in_alinks a j s t W) in Mj.
  pose proof (dist_links_ok _ D _ _ Mi Mj eq_refl eq_refl NZ). congruence.
Qed.

Definition detb (a : astate) (i : N) : bool :=
  match a_map a i with
  | Some (s, t) => ((s =? 0) && (t =? 0)) ||
      forallb (fun k => (l_index k =? i) || negb ((l_source k =? s) && (l_target k =? t))) (alinks a)
  | None => false
  end.
Lemma detb_ok a i : awf a -> detb a i = true -> a_map a i <> None /\ detachable a i.
Proof.
  intros W. unfold detb, detachable. destruct (a_map a i) as [[s t]|] eqn:EM; [|discriminate]. intros D.
  split; [discriminate|]. apply orb_true_iff in D as [D|D].
  - apply andb_true_iff in D as [D1 D2]. apply N.eqb_eq in D1, D2. subst. auto.
  - right. intros j p E1 E2. rewrite EM in E1. injection E1 as <-. rewrite forallb_forall in D.
    apply (in_alinks a j s t W) in E2. specialize (D _ E2). cbn in D. rewrite !N.eqb_refl, orb_false_r in D.
    now apply N.eqb_eq.
Qed.

Definition astep (a : astate) (c : cmd) : astate :=
  match c with Cr => a_create a | Up i s t => a_update a i s t | De i => a_delete a i end.
Definition acheck1 (a : astate) (c : cmd) : bool :=
  match c with Cr => true | Up i _ _ => detb a i | De i => detb a i end.
Fixpoint acheck (a : astate) (l : list cmd) : bool :=
  match l with [] => true | c :: l' => acheck1 a c && acheck (astep a c) l' end.
Definition arun (a : astate) (l : list cmd) : astate := fold_left astep l a.

Section Ex.
  Variables (cf : cfg) (tops : tree_ops) (lops : list_ops).
  Hypothesis ENV : unit_env cf tops lops.
  Notation U := (unit_links cf tops lops).

  Lemma run_ok l : forall st a d st', u_hist cf tops lops st d -> uinv cf st a -> acheck a l = true ->
    run U l st = Some st' -> exists d', u_hist cf tops lops st' d' /\ uinv cf st' (arun a l).
  Proof.
    pose proof (e_ok _ _ _ ENV) as IOK.
    induction l as [|c l IH]; intros st a d st' HH K A E.
    - injection E as <-. exists d. auto.
    - cbn [acheck] in A. apply andb_true_iff in A as [A1 A2]. cbn [run] in E.
      destruct (run1 U c st) as [st1|] eqn:E1; [|discriminate].
      assert (ST : exists d', u_hist cf tops lops st1 d' /\ uinv cf st1 (astep a c)).
      { pose proof (lo_wf _ _ _ _ IOK _ _ K) as W. destruct c as [|i s t|i]; unfold run1 in E1; cbn [astep acheck1] in *.
        - destruct (li_create U unit cont [] st tt) as [[[st2 u] [f|e]]| | |] eqn:EC; try discriminate.
          injection E1 as ->. exists d. split; [eapply hist_create; eauto|].
          destruct ENV as (CF & _ & LOK). cbn in EC.
          destruct (u_create_ok cf CF lops LOK st a [] K) as [(_ & _ & _ & _ & _ & _ & P)|[[_ F]|[(_ & _ & _ & K' & F)|(_ & st2 & K' & C)]]].
          + rewrite P in EC. discriminate.
          + rewrite F in EC. discriminate.
          + rewrite F in EC. discriminate.
          + rewrite C in EC. injection EC as <- _ _. auto.
        - destruct (detb_ok _ _ W A1) as [M D].
          destruct (lo_update _ _ _ _ IOK _ _ [i] [i; s; t] i s t K eq_refl eq_refl eq_refl M D) as (st2 & b & K2 & C).
          rewrite C in E1. injection E1 as <-. exists d. split; auto.
          apply (hist_update _ _ _ _ _ st d unit cont [i] [i; s; t] i s t tt st2 tt (Ok Continue)); auto; [|apply C].
          right. now apply (ob_sep cf _ _ _ IOK _ _ _ K).
        - destruct (detb_ok _ _ W A1) as [M D].
          destruct (a_map a i) as [[s t]|] eqn:EM; [|congruence].
          destruct (lo_delete _ _ _ _ IOK _ _ [i] i s t K eq_refl EM D) as (st2 & K2 & C).
          rewrite C in E1. injection E1 as <-. exists (i :: d). split; auto.
          apply (hist_delete _ _ _ _ _ st d unit cont [i] i tt st2 tt Continue); auto; [|apply C].
          right. now apply (ob_sep cf _ _ _ IOK _ _ _ K). }
      destruct ST as (d1 & H1 & K1). cbn [arun fold_left]. eapply IH; eauto.
  Qed.
End Ex.

(** A small configuration and stores reached by commands. *)
Definition ex_cf : cfg := mkCfg 1000 8 4 0 1 2 0 200 1 100 (Some (300, 400)).
Lemma ex_cf_ok : cfg_ok ex_cf.
Proof. constructor; cbn; try lia; auto. intros a b [= <- <-]. lia. Qed.
Lemma ex_cf_room : cfg_room ex_cf.
Proof. constructor; cbn; lia. Qed.

Lemma ex_env : unit_env ex_cf ref_tree_ops ref_list_ops.
Proof. split; [exact ex_cf_ok|]. split; [exact ref_tree_ops_ok|exact ref_list_ops_ok]. Qed.

Definition ex_U : LinksI ust := unit_links ex_cf ref_tree_ops ref_list_ops.
Definition ex_start : ust :=
  match u_open ex_cf (u_blank (fun _ _ => true)) with Val (Ok st) => st | _ => u_blank (fun _ _ => true) end.
Definition ex_st (l : list cmd) : ust :=
  match run ex_U l ex_start with Some st => st | None => ex_start end.

Lemma ex_reach l : acheck a_empty l = true ->
  match run ex_U l ex_start with Some _ => true | None => false end = true ->
  exists d, u_hist ex_cf ref_tree_ops ref_list_ops (ex_st l) d /\ uinv ex_cf (ex_st l) (arun a_empty l).
Proof.
  intros A E. unfold ex_st. destruct (run ex_U l ex_start) as [st'|] eqn:ER; [|discriminate].
  assert (S0 : u_start ex_cf ex_start).
  { exists (fun _ _ => true). unfold ex_start. vm_compute. reflexivity. }
  eapply (run_ok ex_cf ref_tree_ops ref_list_ops ex_env l ex_start a_empty []); auto.
  - now apply hist_start.
  - exact (u_start_inv _ _ _ ex_env _ S0).
Qed.

Lemma ex_distinct l : acheck a_empty l = true ->
  match run ex_U l ex_start with Some _ => true | None => false end = true ->
  dist_links (alinks (arun a_empty l)) = true -> distinct_pairs ex_U (ex_st l).
Proof.
  intros A E D. destruct (ex_reach l A E) as (d & _ & K). pose proof (e_ok _ _ _ ex_env) as OK.
  apply (ob_distinct ex_cf _ _ _ OK _ _ K). apply adistinct_dec; auto. eapply lo_wf; eauto.
Qed.

(** Three links 1: 1->1, 2: 1->2, 3: 2->1, and the same with a hole at 1. *)
Definition ex3 : list cmd := [Cr; Cr; Cr; Up 1 1 1; Up 2 1 2; Up 3 2 1].
Definition ex3h : list cmd := ex3 ++ [De 1].

(** Links 2 and 4 have the same pair. *)
Definition ex4d : list cmd := ex3 ++ [Cr; Up 4 1 2].
Lemma ex4d_reach : exists d, u_hist ex_cf ref_tree_ops ref_list_ops (ex_st ex4d) d /\
  (separable ex_U (ex_st ex4d) 1 /\ separable ex_U (ex_st ex4d) 3) /\
  is_link ex_U (ex_st ex4d) 1 1 1 /\ is_link ex_U (ex_st ex4d) 2 1 2 /\ is_link ex_U (ex_st ex4d) 3 2 1 /\ is_link ex_U (ex_st ex4d) 4 1 2.
Proof.
  destruct (ex_reach ex4d) as (d & HH & K); [vm_compute; reflexivity..|]. exists d. split; [exact HH|].
  pose proof (e_ok _ _ _ ex_env) as OK. split.
  - split; apply (ob_sep ex_cf _ _ _ OK _ _ _ K), detb_ok; try (vm_compute; reflexivity); eapply lo_wf; eauto.
  - repeat split; vm_compute; reflexivity.
Qed.

Lemma ex3_reach : exists d, u_hist ex_cf ref_tree_ops ref_list_ops (ex_st ex3) d /\ distinct_pairs ex_U (ex_st ex3) /\
  is_link ex_U (ex_st ex3) 1 1 1 /\ is_link ex_U (ex_st ex3) 2 1 2 /\ is_link ex_U (ex_st ex3) 3 2 1.
Proof.
  destruct (ex_reach ex3) as (d & HH & _); [vm_compute; reflexivity..|]. exists d. split; auto.
  split; [apply ex_distinct; vm_compute; reflexivity|]. unfold is_link. repeat (split; [vm_compute; reflexivity|]).
  vm_compute; reflexivity.
Qed.
Lemma ex3h_reach : exists d, u_hist ex_cf ref_tree_ops ref_list_ops (ex_st ex3h) d /\ distinct_pairs ex_U (ex_st ex3h) /\
  no_link ex_U (ex_st ex3h) 1 /\ is_link ex_U (ex_st ex3h) 2 1 2 /\ is_link ex_U (ex_st ex3h) 3 2 1.
Proof.
  destruct (ex_reach ex3h) as (d & HH & _); [vm_compute; reflexivity..|]. exists d. split; auto.
  split; [apply ex_distinct; vm_compute; reflexivity|]. unfold is_link. repeat (split; [vm_compute; reflexivity|]).
  vm_compute; reflexivity.
Qed.
