(** Stopping inside a tree operation of an update of the single-memory store, after any number
    of accesses of the crate's algorithm through the methods of the tree (C77). *)
From Coq Require Import NArith List Bool Lia Permutation.
From Verif Require Import Base Trees Lists TreeInv Spec Iface UnitModel UnitInv UnitOps UnitLinks
  Doublets DoubletsOK Obs Hist Claims TreeImpl UnitHist Layout Accessors TreeProgs Crash CrashWrites CrashClaims.
Import ListNotations.
Open Scope N_scope.

(** The tree operations of update_links (store.rs:483-514) and the point of the update before each. *)
Inductive tree_step := DetachSource | DetachTarget | AttachSource | AttachTarget.
Definition before (w : tree_step) : point :=
  After (match w with DetachSource => 0 | DetachTarget => 1 | AttachSource => 3 | AttachTarget => 4 end)%nat.
Definition on_sources (w : tree_step) : bool := match w with DetachSource | AttachSource => true | _ => false end.

(** An algorithm [q] that, on the tree at hand, ends without failure and without using 0 as a node. *)
Definition ends (w : tree_step) (q : prog unit) (st : ust) : Prop :=
  exists r, (if on_sources w then on_tree (u_len st) (u_len st) (key_src (u_data st)) q (u_src st) (h_sroot st)
             else on_tree (u_len st) (u_len st) (key_tgt (u_data st)) q (u_tgt st) (h_troot st)) = Val r.
(** ... and at no time makes the size of a node other than [i] zero, or other than zero. *)
Definition spares (q : prog unit) (st : ust) (i : N) : Prop :=
  forall n c r, on_tree (u_len st) (u_len st) (key_src (u_data st)) (cut n q) (u_src st) (h_sroot st) = Val (tt, c, r) ->
  forall j, j <> i -> (nz (c j) = 0 <-> nz (u_src st j) = 0).

(** The memory when the process stops after [n] accesses of the algorithm [q] of operation [w]. *)
Definition inside (tops : tree_ops) (st : ust) (i os ot s t : N) (w : tree_step) (q : prog unit) (n : nat) (st2 : ust) : Prop :=
  exists st1 m, at_point tops st i os ot s t (before w) st1 /\ ends w q st1 /\ (on_sources w = true -> spares q st1 i) /\
    (if on_sources w then on_memory us_acc us_root (cut n q) (u_mem st1) else on_memory ut_acc ut_root (cut n q) (u_mem st1)) = Val (tt, m) /\
    same_mem m (u_mem st2).

Lemma mem_cols a b : same_mem (u_mem a) (u_mem b) ->
  u_len a = u_len b /\ forall j, u_data a j = u_data b j /\ u_src a j = u_src b j /\ u_tgt a j = u_tgt b j.
Proof.
  intros (_ & L & _ & W). split; [exact L|]. intros j. cbn [u_mem m_index sl_w] in W.
  pose proof (L_C63_unit_reads a j) as A. pose proof (L_C63_unit_reads b j) as B. cbv zeta in A, B.
  destruct A as (_ & _ & _ & _ & _ & _ & _ & A1 & A2 & A3 & A4 & A5 & A6 & A7 & A8), B as (_ & _ & _ & _ & _ & _ & _ & B1 & B2 & B3 & B4 & B5 & B6 & B7 & B8).
  rewrite W in A1, A2, A3, A4, A5, A6, A7, A8. rewrite A1 in B1. rewrite A2 in B2. rewrite A3 in B3. rewrite A4 in B4. rewrite A5 in B5. rewrite A6 in B6. rewrite A7 in B7. rewrite A8 in B8.
  destruct (u_data a j), (u_data b j), (u_src a j), (u_src b j), (u_tgt a j), (u_tgt b j). cbn in *. repeat split; congruence.
Qed.

Lemma cut_val klen len k A (p : prog A) : forall n c root r, on_tree klen len k p c root = Val r ->
  exists c' root', on_tree klen len k (cut n p) c root = Val (tt, c', root').
Proof.
  assert (ND : forall B (n : N) (x : out B) r, node len n x = Val r -> x = Val r).
  { intros B n x r. unfold node. destruct (n =? 0); [discriminate|]. destruct (n <? len); [auto|discriminate]. }
  assert (ND2 : forall B (a b : N) (x : out B) r, nodes klen a b x = Val r -> x = Val r).
  { intros B a b x r. unfold nodes. destruct (_ || _); [discriminate|]. destruct (_ && _); [auto|discriminate]. }
  assert (NV : forall B C (n : N) (x : out B) (y : out C) r, node len n x = Val r -> node len n y = y).
  { intros B C n x y r. unfold node. destruct (n =? 0); [discriminate|]. destruct (n <? len); [auto|discriminate]. }
  assert (NV2 : forall B C (a b : N) (x : out B) (y : out C) r, nodes klen a b x = Val r -> nodes klen a b y = y).
  { intros B C a b x y r. unfold nodes. destruct (_ || _); [discriminate|]. destruct (_ && _); [auto|discriminate]. }
  intros n. revert p. induction n as [|n IH]; intros p c root r E; [cbn; eauto|].
  destruct p as [o|a q|a q|a q|a v q|a v q|a v q|a q|a b q|a b q|rf q|rf v q]; cbn [cut on_tree] in *; [cbn [obind]; eauto|..].
  all: try (erewrite NV by exact E; apply ND in E; eapply IH; exact E).
  all: try (erewrite NV2 by exact E; apply ND2 in E; eapply IH; exact E).
  all: destruct rf; try (erewrite NV by exact E; apply ND in E); eapply IH; exact E.
Qed.

Section C.
  Variables (cf : cfg) (tops : tree_ops) (lops : list_ops).
  Hypothesis ENV : unit_env cf tops lops.
  Notation U := (unit_links cf tops lops).

  Lemma crep_cols st1 st2 a i p (b b' : bool) : awf a -> a_map a i <> None -> crep st1 a i p b -> u_len st2 = u_len st1 ->
    (forall j, u_data st2 j = u_data st1 j) -> nl (u_src st2 0) = nl (u_src st1 0) -> nr (u_src st2 0) = nr (u_src st1 0) ->
    (forall j, j <> 0 -> j <> i -> (nz (u_src st2 j) = 0 <-> nz (u_src st1 j) = 0)) ->
    (if b' then nz (u_src st2 i) <> 0 else nz (u_src st2 i) = 0) -> crep st2 a i p b'.
  Proof.
    intros W M C L D NL NR Z B. assert (RI : 1 <= i <= a_top a /\ ~ In i (a_free a)) by now apply (wf_dom _ W).
    destruct C as [CA CL CF CR CD CH CS CP CB]. constructor; auto.
    - unfold h_alloc. rewrite D. exact CA.
    - now rewrite L.
    - unfold h_first. rewrite NR. exact CF.
    - unfold h_free. rewrite NL. exact CR.
    - intros j q J E. rewrite D. auto.
    - intros j IF. rewrite D. destruct (CH j IF) as [A1 A2]. split; auto. apply Z; auto; [apply (wf_free _ W) in IF; lia|intros ->; tauto].
    - intros j s t J E S0. pose proof (CS j s t J E S0) as K. intros K'. apply K, Z; auto.
      intros ->. assert (Q : a_map a 0 <> None) by congruence. apply (wf_dom _ W) in Q. lia.
    - now rewrite D.
  Qed.
  Lemma inside_crep st a i os ot s t w q n st2 : uinv cf st a -> a_map a i = Some (os, ot) -> detachable a i ->
    inside tops st i os ot s t w q n st2 ->
    exists b, crep st2 a i (stored (before w) os ot s t) b /\
      (on_sources w = false -> visible (stored (before w) os ot s t) b = false <-> detached_point (before w) os s).
  Proof.
    intros K M D (st1 & m & AP & [r EN] & SP & EM & SM).
    assert (W : awf a) by (destruct K; auto). assert (MN : a_map a i <> None) by congruence.
    destruct (point_crep cf tops lops ENV st a i os ot s t _ st1 K M D AP) as (b & C & V).
    destruct (L_C75_unit st1 unit (cut n q)) as [SS ST].
    destruct (on_sources w) eqn:OS.
    - destruct (cut_val _ _ _ _ _ n _ _ _ EN) as (c' & r' & E). rewrite E in SS. cbn [agree] in SS. destruct SS as (m' & EM' & SM').
      rewrite EM in EM'. injection EM' as <-.
      destruct (mem_cols st2 (set_src st1 (set_sroot c' r'))) as (L & CO); [eapply same_trans; [apply same_sym; exact SM|exact SM']|].
      assert (C0 : c' 0 = u_src st1 0).
      { clear -E. revert E. generalize (cut n q). clear n q. intros p. generalize (h_sroot st1). intros root. revert c' r'. generalize (u_src st1).
        assert (ND : forall B (n : N) (x : out B) r, node (u_len st1) n x = Val r -> n <> 0 /\ x = Val r).
        { intros B n x r. unfold node. destruct (N.eqb_spec n 0); [discriminate|]. destruct (n <? _); [auto|discriminate]. }
        assert (ND2 : forall B (a b : N) (x : out B) r, nodes (u_len st1) a b x = Val r -> x = Val r).
        { intros B a b x r. unfold nodes. destruct (_ || _); [discriminate|]. destruct (_ && _); [auto|discriminate]. }
        revert root. induction p as [o|a k IH|a k IH|a k IH|a v k IH|a v k IH|a v k IH|a k IH|a b k IH|a b k IH|rf k IH|rf v k IH]; intros root c c' r' E; cbn [on_tree] in E.
        - destruct o; cbn [obind] in E; try discriminate. injection E as _ <- <-. reflexivity.
        - apply ND in E as [_ E]. eapply IH; eauto.
        - apply ND in E as [_ E]. eapply IH; eauto.
        - apply ND in E as [_ E]. eapply IH; eauto.
        - apply ND in E as [? E]. apply IH in E. rewrite upd_other in E; auto.
        - apply ND in E as [? E]. apply IH in E. rewrite upd_other in E; auto.
        - apply ND in E as [? E]. apply IH in E. rewrite upd_other in E; auto.
        - apply ND in E as [? E]. apply IH in E. rewrite upd_other in E; auto.
        - apply ND2 in E. eapply IH; eauto.
        - apply ND2 in E. eapply IH; eauto.
        - destruct rf; [|apply ND in E as [_ E]|apply ND in E as [_ E]]; eapply IH; eauto.
        - destruct rf; [|apply ND in E as [? E]|apply ND in E as [? E]]; apply IH in E; auto; rewrite upd_other in E; auto. }
      exists (negb (nz (u_src st2 i) =? 0)). split; [|discriminate].
      pose proof (SP eq_refl n c' r' E) as Z. apply (crep_cols st1 st2 a i _ b); auto.
      + intros j. apply CO.
      + destruct (CO 0) as (_ & -> & _). cbn [u_src set_src]. unfold set_sroot. rewrite upd_same. cbn [nl]. now rewrite C0.
      + destruct (CO 0) as (_ & -> & _). cbn [u_src set_src]. unfold set_sroot. rewrite upd_same. cbn [nr]. now rewrite C0.
      + intros j J0 JI. destruct (CO j) as (_ & -> & _). cbn [u_src set_src]. unfold set_sroot. rewrite upd_other by auto. now apply Z.
      + destruct (N.eqb_spec (nz (u_src st2 i)) 0); cbn [negb]; auto.
    - destruct (cut_val _ _ _ _ _ n _ _ _ EN) as (c' & r' & E). rewrite E in ST. cbn [agree] in ST. destruct ST as (m' & EM' & SM').
      rewrite EM in EM'. injection EM' as <-.
      destruct (mem_cols st2 (set_tgt st1 (set_troot c' r'))) as (L & CO); [eapply same_trans; [apply same_sym; exact SM|exact SM']|].
      exists b. split; [|intros _; exact V]. apply (crep_cols st1 st2 a i _ b); auto.
      + intros j. apply CO.
      + destruct (CO 0) as (_ & -> & _). reflexivity.
      + destruct (CO 0) as (_ & -> & _). reflexivity.
      + intros j J0 JI. destruct (CO j) as (_ & -> & _). reflexivity.
      + destruct (CO i) as (_ & -> & _). exact (cr_b _ _ _ _ _ C).
  Qed.
  (** What a store opened from such a memory shows. *)
  Lemma crep_shows st a i os ot p b st1 orc st2 : uinv cf st a -> a_map a i = Some (os, ot) ->
    (forall j, linked U st j -> j < c_step cf) -> crep st1 a i p b -> u_open cf (u_persist st1 orc) = Val (Ok st2) ->
    frame U st st2 i /\ exists n, u_count cf st [] = Val n /\ u_count cf st2 [] = Val n /\
    (if visible p b then is_link U st2 i (fst p) (snd p) /\ u_each cf (fun m _ => (m + 1, Continue)) [] st2 0 = Val (n, Continue)
     else no_link U st2 i /\ exists m, n = m + 1 /\ u_each cf (fun m _ => (m + 1, Continue)) [] st2 0 = Val (m, Continue)).
  Proof.
    intros K M LT C E2. pose proof (e_ok _ _ _ ENV) as OK.
    assert (W : awf a) by (eapply lo_wf; eauto). assert (MN : a_map a i <> None) by congruence.
    pose proof (top_lt cf tops lops ENV _ _ K LT) as TL.
    pose proof (crep_open cf tops lops ENV _ _ _ _ _ _ _ W MN C TL E2) as C2.
    split.
    - intros j J. transitivity (Val (olink j (a_map (a_seen a i p b) j))).
      + now apply (crep_get cf tops lops ENV).
      + cbn [a_seen a_map]. rewrite upd_other by auto. symmetry. exact (lo_get _ _ _ _ OK _ _ j K).
    - exists (N.of_nat (length (alinks a))). split; [|split].
      + eapply crep_count; [exact W|]. eapply urep_crep; eauto.
      + eapply crep_count; [exact W|exact C2].
      + pose proof (seen_length a i p b W MN) as SL. pose proof (run_count_visits (alinks (a_seen a i p b)) 0) as RC. unfold count_visits in RC.
        pose proof (crep_get cf tops lops ENV _ _ _ _ _ i W MN C2) as G. cbn [a_seen a_map] in G. rewrite upd_same in G.
        rewrite (crep_each cf tops lops ENV _ _ _ _ _ _ _ _ W MN C2), RC. destruct (visible p b).
        * split; [unfold is_link; etransitivity; [exact G|]; destruct p; reflexivity|]. rewrite SL. do 2 f_equal. lia.
        * split; [exact G|]. eexists. split; [|reflexivity]. rewrite SL. lia.
  Qed.
End C.

(** * C77 *)
(** The process stops inside a tree operation: every other link is as before, and link [i] is there
    with the fields it has at that moment, or it is lost, and then count counts it and each does not visit it. *)
Lemma L_C77_stopped_inside_partial cf tops lops st d i os ot s t w q n st1 orc st2 :
  let U := unit_links cf tops lops in let p := stored (before w) os ot s t in
  unit_env cf tops lops -> u_hist cf tops lops st d -> is_link U st i os ot -> separable U st i ->
  (forall j, linked U st j -> j < c_step cf) ->
  inside tops st i os ot s t w q n st1 -> u_open cf (u_persist st1 orc) = Val (Ok st2) ->
  frame U st st2 i /\ exists n, u_count cf st [] = Val n /\ u_count cf st2 [] = Val n /\
  (is_link U st2 i (fst p) (snd p) /\ u_each cf (fun m _ => (m + 1, Continue)) [] st2 0 = Val (n, Continue) \/
   no_link U st2 i /\ exists m, n = m + 1 /\ u_each cf (fun m _ => (m + 1, Continue)) [] st2 0 = Val (m, Continue)).
Proof.
  intros U p ENV HH L S LT IN E2. destruct (u_hist_inv cf tops lops ENV st d HH) as (a & K & D).
  pose proof (e_ok _ _ _ ENV) as OK.
  apply (ob_link cf _ U _ OK _ _ _ _ _ K) in L. apply (ob_sep cf _ U _ OK _ _ _ K) in S.
  destruct (inside_crep cf tops lops ENV st a i os ot s t w q n st1 K L S IN) as (b & C & _).
  destruct (crep_shows cf tops lops ENV st a i os ot _ b st1 orc st2 K L LT C E2) as (F & m & C1 & C2 & X).
  split; [exact F|]. exists m. split; [exact C1|]. split; [exact C2|]. subst p. destruct (visible _ b); auto.
Qed.
(** Inside an operation on the tree of targets, it is lost exactly if it was before the operation. *)
Lemma L_C77_targets cf tops lops st d i os ot s t w q n st1 orc st2 :
  let U := unit_links cf tops lops in
  unit_env cf tops lops -> u_hist cf tops lops st d -> is_link U st i os ot -> separable U st i ->
  (forall j, linked U st j -> j < c_step cf) ->
  inside tops st i os ot s t w q n st1 -> u_open cf (u_persist st1 orc) = Val (Ok st2) ->
  (w = DetachTarget -> os <> 0 -> no_link U st2 i) /\ (w = DetachTarget -> os = 0 -> is_link U st2 i os ot) /\
  (w = AttachTarget -> is_link U st2 i s t).
Proof.
  intros U ENV HH L S LT IN E2. destruct (u_hist_inv cf tops lops ENV st d HH) as (a & K & D).
  pose proof (e_ok _ _ _ ENV) as OK.
  apply (ob_link cf _ U _ OK _ _ _ _ _ K) in L. apply (ob_sep cf _ U _ OK _ _ _ K) in S.
  destruct (inside_crep cf tops lops ENV st a i os ot s t w q n st1 K L S IN) as (b & C & V).
  destruct (crep_shows cf tops lops ENV st a i os ot _ b st1 orc st2 K L LT C E2) as (F & m & C1 & C2 & X).
  split; [|split]; intros ->; specialize (V eq_refl); cbn [before detached_point stored fst snd] in V, X.
  - intros O. destruct (visible _ b); [|apply X]. destruct V as [_ V]. discriminate (V O).
  - intros O. destruct (visible _ b); [apply X|]. destruct V as [V _]. destruct (V eq_refl O).
  - destruct (visible _ b); [apply X|]. destruct V as [V _]. destruct (V eq_refl).
Qed.

(** ** The points exist *)
Lemma L_C77_points_exist cf tops lops st d i os ot s t w q n st1 orc :
  let U := unit_links cf tops lops in
  unit_env cf tops lops -> u_hist cf tops lops st d -> is_link U st i os ot -> separable U st i ->
  (forall j, linked U st j -> j < c_step cf) -> c_step cf - 1 <= c_tmax cf ->
  orc 0%nat (c_page cf) = true -> orc 1%nat (c_step cf) = true ->
  at_point tops st i os ot s t (before w) st1 -> ends w q st1 -> (on_sources w = true -> spares q st1 i) ->
  exists st2 st3, inside tops st i os ot s t w q n st2 /\ u_open cf (u_persist st2 orc) = Val (Ok st3).
Proof.
  intros U ENV HH L S LT TM O1 O2 AP EN SP. destruct (u_hist_inv cf tops lops ENV st d HH) as (a & K & D).
  pose proof (e_ok _ _ _ ENV) as OK.
  apply (ob_link cf _ U _ OK _ _ _ _ _ K) in L. apply (ob_sep cf _ U _ OK _ _ _ K) in S.
  assert (IN : exists st2, inside tops st i os ot s t w q n st2).
  { destruct (L_C75_unit st1 unit (cut n q)) as [SS ST]. pose proof EN as [r E0]. destruct (on_sources w) eqn:OS.
    - destruct (cut_val _ _ _ _ _ n _ _ _ E0) as (c' & r' & E). rewrite E in SS. cbn [agree] in SS. destruct SS as (m & EM & SM).
      exists (set_src st1 (set_sroot c' r')), st1, m. rewrite OS. auto.
    - destruct (cut_val _ _ _ _ _ n _ _ _ E0) as (c' & r' & E). rewrite E in ST. cbn [agree] in ST. destruct ST as (m & EM & SM).
      exists (set_tgt st1 (set_troot c' r')), st1, m. rewrite OS. auto. }
  destruct IN as [st2 IN]. destruct (inside_crep cf tops lops ENV st a i os ot s t w q n st2 K L S IN) as (b & C & _).
  destruct (crep_reopens cf tops lops ENV _ _ _ _ _ orc C) as [st3 E2]; auto; [eapply top_lt; eauto|].
  exists st2, st3. auto.
Qed.

(** ** An algorithm for every operation *)
Lemma realise_attach k c root P x klen len : len <= klen -> tree_inv k c root P -> (forall i, P i -> i < len) -> x <> 0 -> x < len -> ~ P x -> c x = nd0 ->
  exists q c2 c' r, on_tree klen len k q c root = Val (tt, c2, r) /\ t_attach ref_tree_ops k c root x = Val (c', r) /\
    (forall i, c2 i = c' i) /\ always klen len k (keeps x c) q c root.
Proof.
  intros LE (t & TR & ND & WS & EL) BD X0 XL NP CX. exists (insert_at (S (height t)) Root x).
  assert (XN : ~ In x (elems t)) by (now rewrite EL).
  assert (B : forall y, In y (elems t) -> y < len /\ y < klen) by (intros y Y; apply EL, BD in Y; split; lia).
  destruct (L_C75_realised klen len k c root t x (S (height t)) TR ND WS B X0 XL ltac:(lia)) as [(c' & r' & c2 & E1 & E2 & F) _]; auto.
  exists c2, c', r'. split; [exact E2|]. split; [exact E1|]. split; [exact F|].
  destruct (insert_ok klen len k x X0 XL ltac:(lia) t (S (height t)) Root c root) as (_ & _ & _ & _ & _ & AL); auto; [now rewrite CX|now rewrite CX|exact I].
Qed.
Lemma realise_detach k c root P x klen len : len <= klen -> tree_inv k c root P -> (forall i, P i -> i < len) -> P x -> (forall j, P j -> k j = k x -> j = x) ->
  exists q c2 c' r, on_tree klen len k q c root = Val (tt, c2, r) /\ t_detach ref_tree_ops k c root x = Val (c', r) /\
    (forall i, c2 i = c' i) /\ always klen len k (keeps x c) q c root.
Proof.
  intros LE (t & TR & ND & WS & EL) BD PX KA. exists (remove_at (S (height t)) Root x).
  assert (XI : In x (elems t)) by (now rewrite EL).
  assert (X0 : x <> 0) by (intros ->; exact (trep_nonzero _ _ _ TR XI)). pose proof (BD x PX) as XL.
  assert (KA' : key_alone k x (elems t)) by (intros j J; apply KA; now apply EL).
  assert (B : forall y, In y (elems t) -> y < len /\ y < klen) by (intros y Y; apply EL, BD in Y; split; lia).
  destruct (L_C75_realised klen len k c root t x (S (height t)) TR ND WS B X0 XL ltac:(lia)) as [_ (c' & r' & c2 & E1 & E2 & F)]; auto.
  exists c2, c', r'. split; [exact E2|]. split; [exact E1|]. split; [exact F|].
  destruct (remove_ok klen len k x t (S (height t)) Root c root) as (_ & _ & _ & _ & _ & _ & AL); auto. exact I.
Qed.

Definition tree_op (tops : tree_ops) (w : tree_step) (i : N) (st : ust) : out ust :=
  match w with
  | DetachSource => u_detach_source tops st i | DetachTarget => u_detach_target tops st i
  | AttachSource => u_attach_source tops st i | AttachTarget => u_attach_target tops st i
  end.
(** The end of the link the operation is about; the operation is done if it is not 0. *)
Definition end_of (w : tree_step) (os ot s t : N) : N :=
  match w with DetachSource => os | DetachTarget => ot | AttachSource => s | AttachTarget => t end.

Section R.
  Variables (cf : cfg) (lops : list_ops).
  Hypothesis ENV : unit_env cf ref_tree_ops lops.
  Let TOK : tree_ops_ok ref_tree_ops := proj1 (proj2 ENV).

  Lemma point_half st a i os ot s t w st1 : uinv cf st a -> a_map a i = Some (os, ot) -> detachable a i ->
    at_point ref_tree_ops st i os ot s t (before w) st1 ->
    u_len st1 = u_len st /\
    match w with
    | DetachSource => src_half st1 (psrc a) /\ u_data st1 = u_data st
    | DetachTarget => tgt_half st1 (ptgt a) /\ u_data st1 = u_data st
    | AttachSource => src_half st1 (fun j => j <> i /\ psrc a j)
    | AttachTarget => tgt_half st1 (fun j => j <> i /\ ptgt a j)
    end.
  Proof.
    intros [R W] EM DET E.
    assert (DOM : 1 <= i <= a_top a /\ ~ In i (a_free a)) by (apply (ur_dom _ _ _ R); congruence).
    assert (I0 : i <> 0) by lia. pose proof (ur_len _ _ _ R) as HL.
    assert (HH : u_header st = Val tt) by (eapply u_header_ok; eauto).
    assert (PS : negb (os =? 0) = true <-> psrc a i).
    { rewrite neqb0. split; [intros; exists os, ot; auto|]. intros (x & y & E' & K). congruence. }
    assert (PT : negb (ot =? 0) = true <-> ptgt a i).
    { rewrite neqb0. split; [intros; exists os, ot; auto|]. intros (x & y & E' & K). congruence. }
    assert (SH0 : src_half st (psrc a)) by (split; [apply (ur_src _ _ _ R)|apply (ur_src0 _ _ _ R)]).
    destruct (src_detach ref_tree_ops TOK st (psrc a) i (negb (os =? 0)) HH) as (c1 & E1 & H1 & A1 & B1); auto.
    { intros NB j (js & jt & J1 & J2) K.
      rewrite (key_src_data _ _ _ _ _ _ R J1), (key_src_data _ _ _ _ _ _ R EM) in K.
      destruct DET as [D|D]; [apply neqb0 in NB; congruence|].
      inversion K; subst. eapply D; eauto. }
    set (st1' := set_src st c1) in *.
    assert (TH1 : tgt_half st1' (ptgt a)) by (split; [apply (ur_tgt _ _ _ R)|apply (ur_tgt0 _ _ _ R)]).
    destruct (tgt_detach ref_tree_ops TOK st1' (ptgt a) i (negb (ot =? 0)) HH) as (c2 & E2 & H2 & A2 & B2); auto.
    { intros NB j (js & jt & J1 & J2) K.
      change (u_data st1') with (u_data st) in K.
      rewrite (key_tgt_data _ _ _ _ _ _ R J1), (key_tgt_data _ _ _ _ _ _ R EM) in K.
      destruct DET as [D|D]; [apply neqb0 in NB; congruence|].
      inversion K; subst. eapply D; eauto. }
    set (st2 := set_tgt st1' c2) in *. set (st3 := set_data st2 (upd (u_data st2) i (s, t))) in *.
    assert (RD : rd (u_len st2) (u_data st2) i = Val (u_data st2 i)) by (apply rd_ok; change (u_len st2) with (u_len st); lia).
    assert (SH3 : src_half st3 (fun j => j <> i /\ psrc a j)) by (apply src_half_data; [exact H1|tauto]).
    assert (TH3 : tgt_half st3 (fun j => j <> i /\ ptgt a j)) by (apply tgt_half_data; [exact H2|tauto]).
    destruct (src_attach ref_tree_ops TOK st3 _ i (negb (s =? 0)) HH SH3 I0) as (c4 & E4 & H4 & A4 & B4); [tauto|].
    destruct w; cbn [before at_point] in E; unfold stopped, update_steps in E; cbn [firstn run_steps] in E.
    - injection E as <-. auto.
    - rewrite E1 in E. cbn [obind] in E. injection E as <-. auto.
    - rewrite E1 in E. cbn [obind] in E. rewrite E2 in E. cbn [obind] in E. rewrite RD in E. cbn [obind] in E. injection E as <-. auto.
    - rewrite E1 in E. cbn [obind] in E. rewrite E2 in E. cbn [obind] in E. rewrite RD in E. cbn [obind] in E. fold st3 in E. rewrite E4 in E. cbn [obind] in E.
      injection E as <-. auto.
  Qed.
End R.

(** For the operations the models are run with, there is such an algorithm at every point of every update. *)
Lemma L_C77_realised cf lops st d i os ot s t w st1 :
  let U := unit_links cf ref_tree_ops lops in
  unit_env cf ref_tree_ops lops -> u_hist cf ref_tree_ops lops st d -> is_link U st i os ot -> separable U st i ->
  at_point ref_tree_ops st i os ot s t (before w) st1 -> end_of w os ot s t <> 0 ->
  exists q st2 m, ends w q st1 /\ (on_sources w = true -> spares q st1 i) /\
    (if on_sources w then on_memory us_acc us_root q (u_mem st1) else on_memory ut_acc ut_root q (u_mem st1)) = Val (tt, m) /\
    tree_op ref_tree_ops w i st1 = Val st2 /\ same_mem m (u_mem st2).
Proof.
  intros U ENV HH L S AP NZ. destruct (u_hist_inv cf ref_tree_ops lops ENV st d HH) as (a & K & D).
  pose proof (e_ok _ _ _ ENV) as OK.
  apply (ob_link cf _ U _ OK _ _ _ _ _ K) in L. apply (ob_sep cf _ U _ OK _ _ _ K) in S.
  destruct (point_half cf lops ENV st a i os ot s t w st1 K L S AP) as [LN H].
  destruct K as [R W]. assert (DOM : 1 <= i <= a_top a /\ ~ In i (a_free a)) by (apply (ur_dom _ _ _ R); congruence).
  pose proof (ur_len _ _ _ R) as HL. assert (I0 : i <> 0) by lia. assert (IL : i < u_len st1) by (rewrite LN; lia).
  assert (HD : u_header st1 = Val tt) by (unfold u_header; destruct (N.ltb_spec 0 (u_len st1)); [auto|lia]).
  assert (PSR : forall j, psrc a j -> j < u_len st1) by (intros j J; apply psrc_dom in J; apply (wf_dom _ W) in J; lia).
  assert (PTR : forall j, ptgt a j -> j < u_len st1) by (intros j (x & y & J & _); assert (Q : a_map a j <> None) by congruence; apply (wf_dom _ W) in Q; lia).
  destruct w; cbn [on_sources end_of tree_op] in *.
  - destruct H as [[TI Z] DD]. destruct (realise_detach _ _ _ _ i (u_len st1) (u_len st1) (N.le_refl _) TI PSR) as (q & c2 & c' & r & E1 & E2 & F & AL).
    { exists os, ot. auto. }
    { intros j (js & jt & J1 & J2) Q. rewrite DD in Q. rewrite (key_src_data _ _ _ _ _ _ R J1), (key_src_data _ _ _ _ _ _ R L) in Q.
      destruct S as [S|S]; [congruence|]. inversion Q; subst. eapply S; eauto. }
    destruct (L_C75_unit st1 unit q) as [SS _]. rewrite E1 in SS. cbn [agree] in SS. destruct SS as (m & EM & SM).
    exists q, (set_src st1 (set_sroot c' r)), m. split; [exists (tt, c2, r); exact E1|]. split; [intros _ n c0 r0 E0; exact (AL n c0 r0 E0)|]. split; [exact EM|].
    split; [unfold u_detach_source; rewrite HD; cbn [obind]; rewrite E2; reflexivity|].
    eapply same_trans; [exact SM|]. destruct (holds_us st1) as (_ & _ & _ & _ & _ & _ & HE). exact (HE c2 c' r F).
  - destruct H as [[TI Z] DD]. destruct (realise_detach _ _ _ _ i (u_len st1) (u_len st1) (N.le_refl _) TI PTR) as (q & c2 & c' & r & E1 & E2 & F & AL).
    { exists os, ot. auto. }
    { intros j (js & jt & J1 & J2) Q. rewrite DD in Q. rewrite (key_tgt_data _ _ _ _ _ _ R J1), (key_tgt_data _ _ _ _ _ _ R L) in Q.
      destruct S as [S|S]; [congruence|]. inversion Q; subst. eapply S; eauto. }
    destruct (L_C75_unit st1 unit q) as [_ SS]. rewrite E1 in SS. cbn [agree] in SS. destruct SS as (m & EM & SM).
    exists q, (set_tgt st1 (set_troot c' r)), m. split; [exists (tt, c2, r); exact E1|]. split; [discriminate|]. split; [exact EM|].
    split; [unfold u_detach_target; rewrite HD; cbn [obind]; rewrite E2; reflexivity|].
    eapply same_trans; [exact SM|]. destruct (holds_ut st1) as (_ & _ & _ & _ & _ & _ & HE). exact (HE c2 c' r F).
  - destruct H as [TI Z]. destruct (realise_attach _ _ _ _ i (u_len st1) (u_len st1) (N.le_refl _) TI) as (q & c2 & c' & r & E1 & E2 & F & AL); auto; [intros j [_ J]; auto|tauto|apply Z; tauto|].
    destruct (L_C75_unit st1 unit q) as [SS _]. rewrite E1 in SS. cbn [agree] in SS. destruct SS as (m & EM & SM).
    exists q, (set_src st1 (set_sroot c' r)), m. split; [exists (tt, c2, r); exact E1|]. split; [intros _ n c0 r0 E0; exact (AL n c0 r0 E0)|]. split; [exact EM|].
    split; [unfold u_attach_source; rewrite HD; cbn [obind]; rewrite E2; reflexivity|].
    eapply same_trans; [exact SM|]. destruct (holds_us st1) as (_ & _ & _ & _ & _ & _ & HE). exact (HE c2 c' r F).
  - destruct H as [TI Z]. destruct (realise_attach _ _ _ _ i (u_len st1) (u_len st1) (N.le_refl _) TI) as (q & c2 & c' & r & E1 & E2 & F & AL); auto; [intros j [_ J]; auto|tauto|apply Z; tauto|].
    destruct (L_C75_unit st1 unit q) as [_ SS]. rewrite E1 in SS. cbn [agree] in SS. destruct SS as (m & EM & SM).
    exists q, (set_tgt st1 (set_troot c' r)), m. split; [exists (tt, c2, r); exact E1|]. split; [discriminate|]. split; [exact EM|].
    split; [unfold u_attach_target; rewrite HD; cbn [obind]; rewrite E2; reflexivity|].
    eapply same_trans; [exact SM|]. destruct (holds_ut st1) as (_ & _ & _ & _ & _ & _ & HE). exact (HE c2 c' r F).
Qed.

(** The hypotheses are met, at every operation and after any number of accesses of its algorithm. *)
Lemma L_C77_nonvacuous w n : exists st d q st1 st2, u_hist ex_cf ref_tree_ops ref_list_ops st d /\
  is_link ex_U st 2 1 2 /\ is_link ex_U st 3 2 1 /\ separable ex_U st 2 /\ (forall j, linked ex_U st j -> j < c_step ex_cf) /\
  inside ref_tree_ops st 2 1 2 2 2 w q n st1 /\ u_open ex_cf (u_persist st1 (fun _ _ => true)) = Val (Ok st2).
Proof.
  destruct ex3_reach as (d0 & _ & DP & _ & L2 & L3).
  destruct (ex_reach ex3) as (d & HH & K); [vm_compute; reflexivity..|]. pose proof (e_ok _ _ _ ex_env) as OK.
  assert (SE : separable ex_U (ex_st ex3) 2) by (apply distinct_separable; exact DP).
  assert (LT : forall j, linked ex_U (ex_st ex3) j -> j < c_step ex_cf).
  { intros i LI. apply (ob_top ex_cf _ _ _ OK _ _ K) in LI. vm_compute (a_top _) in LI. cbn. lia. }
  destruct (point_exists ex_cf ref_tree_ops ref_list_ops ex_env _ _ 2 1 2 2 2 (before w) K) as [st1 AP].
  { now apply (ob_link ex_cf _ _ _ OK _ _ _ _ _ K). }
  { apply (ob_sep ex_cf _ _ _ OK _ _ _ K). exact SE. }
  destruct (L_C77_realised ex_cf ref_list_ops _ d 2 1 2 2 2 w st1 ex_env HH L2 SE AP) as (q & st1' & m & EN & SP & _); [destruct w; discriminate|].
  destruct (L_C77_points_exist ex_cf ref_tree_ops ref_list_ops _ d 2 1 2 2 2 w q n st1 (fun _ _ => true) ex_env HH L2 SE LT) as (st2 & st3 & IN & E); auto; [discriminate|].
  exists (ex_st ex3), d, q, st2, st3. auto 10.
Qed.
(** That link [i] is there is too much: it is lost wherever the process stops inside the second operation. *)
Lemma L_C77_refuted n : exists st d q st1 st2, u_hist ex_cf ref_tree_ops ref_list_ops st d /\ is_link ex_U st 2 1 2 /\ separable ex_U st 2 /\
  inside ref_tree_ops st 2 1 2 2 2 DetachTarget q n st1 /\ u_open ex_cf (u_persist st1 (fun _ _ => true)) = Val (Ok st2) /\ no_link ex_U st2 2.
Proof.
  destruct (L_C77_nonvacuous DetachTarget n) as (st & d & q & st1 & st2 & HH & L2 & L3 & SE & LT & IN & E).
  exists st, d, q, st1, st2. repeat (split; [assumption|]).
  apply (L_C77_targets ex_cf ref_tree_ops ref_list_ops st d 2 1 2 2 2 DetachTarget q n st1 (fun _ _ => true) st2 ex_env HH L2 SE LT IN E); [reflexivity|discriminate].
Qed.
(** An algorithm that makes the size of another node zero for the time of one access loses that other link. *)
Definition blink (j v : N) : prog unit := SetSize j 0 (SetSize j v (Done (Val tt))).
Lemma blink_does st j : j <> 0 -> j < u_len st ->
  let q := blink j (nz (u_src st j)) in
  let st1 := set_src st (set_sroot (upd (u_src st) j (mkNd (nl (u_src st j)) (nr (u_src st j)) 0)) (h_sroot st)) in
  ends DetachSource q st /\
  (exists m', on_memory us_acc us_root q (u_mem st) = Val (tt, m') /\ same_mem m' (u_mem st)) /\
  exists m, on_memory us_acc us_root (cut 1 q) (u_mem st) = Val (tt, m) /\ same_mem m (u_mem st1).
Proof.
  intros J0 JL q st1.
  assert (ND : forall B (x : out B), node (u_len st) j x = x).
  { intros B x. unfold node. destruct (N.eqb_spec j 0); [tauto|]. destruct (N.ltb_spec j (u_len st)); [auto|lia]. }
  destruct (L_C75_unit st unit (cut 1 q)) as [S1 _]. destruct (L_C75_unit st unit q) as [S2 _].
  unfold q, blink in S1, S2. cbn [cut on_tree] in S1, S2. rewrite !ND in S1. rewrite !ND in S2. cbn [obind agree] in S1, S2.
  split; [|split].
  - eexists. unfold q, blink. cbn [on_sources on_tree]. rewrite !ND. cbn [obind]. reflexivity.
  - destruct S2 as (m & E & SM). exists m. split; [exact E|]. eapply same_trans; [exact SM|].
    destruct (holds_us st) as (_ & _ & _ & _ & _ & _ & HE). eapply same_trans; [apply (HE _ (u_src st) (h_sroot st))|].
    + intros i. unfold upd. destruct (i =? j) eqn:Q; [|reflexivity]. apply N.eqb_eq in Q as ->. rewrite N.eqb_refl. destruct (u_src st j); reflexivity.
    + apply same_sym, us_self.
  - exact S1.
Qed.
Lemma L_C77_spares_needed : exists st d q m st1 st2, u_hist ex_cf ref_tree_ops ref_list_ops st d /\ is_link ex_U st 2 1 2 /\ is_link ex_U st 3 2 1 /\
  separable ex_U st 2 /\ at_point ref_tree_ops st 2 1 2 2 2 (before DetachSource) st /\ ends DetachSource q st /\
  (exists m', on_memory us_acc us_root q (u_mem st) = Val (tt, m') /\ same_mem m' (u_mem st)) /\
  on_memory us_acc us_root (cut 1 q) (u_mem st) = Val (tt, m) /\ same_mem m (u_mem st1) /\
  u_open ex_cf (u_persist st1 (fun _ _ => true)) = Val (Ok st2) /\ no_link ex_U st2 3.
Proof.
  destruct ex3_reach as (d & HH & DP & _ & L2 & L3).
  destruct (blink_does (ex_st ex3) 3) as (EN & M' & m & E & SM); [discriminate|vm_compute; reflexivity|].
  eexists (ex_st ex3), d, _, m, _.
  exists (match u_open ex_cf (u_persist (let st := ex_st ex3 in set_src st (set_sroot (upd (u_src st) 3 (mkNd (nl (u_src st 3)) (nr (u_src st 3)) 0)) (h_sroot st))) (fun _ _ => true)) with Val (Ok s) => s | _ => ex_start end).
  split; [exact HH|]. split; [exact L2|]. split; [exact L3|]. split; [apply distinct_separable; exact DP|]. split; [reflexivity|].
  split; [exact EN|]. split; [exact M'|]. split; [exact E|]. split; [exact SM|]. split; [vm_compute; reflexivity|vm_compute; reflexivity].
Qed.
