(** Stopping inside any tree operation of either store, after any number of accesses of the
    crate's algorithm, compared with stopping before or after that operation (C78). *)
From Coq Require Import NArith List Bool Lia.
From Verif Require Import Base Trees Lists TreeInv Spec Iface UnitModel UnitInv UnitOps UnitLinks LinkModel SplitModel Forest
  SplitInv SplitReads SplitOps SplitWrites SplitLinks Doublets DoubletsOK Obs Hist Claims TreeImpl UnitHist SplitHist
  Layout Accessors TreeProgs CrashInside SplitCrash SplitCrashClaims.
Import ListNotations.
Open Scope N_scope.

(** * What a reopened store shows *)
(** Two results of opening: the same failure, or two stores that read the same links, count
    the same number of links and visit the same links. *)
Definition u_alike (cf : cfg) (x y : out (result ust)) : Prop :=
  match x, y with
  | Val (Ok s), Val (Ok s') => (forall i, u_get_link cf s i = u_get_link cf s' i) /\ u_count cf s [] = u_count cf s' [] /\
      forall H (h : rhandler H) z, u_each cf h [] s z = u_each cf h [] s' z
  | Val (Err e), Val (Err e') => e = e'
  | Panic, Panic | UB, UB | Diverge, Diverge => True
  | _, _ => False
  end.
Definition s_alike (cf : cfg) (x y : out (result sst)) : Prop :=
  match x, y with
  | Val (Ok s), Val (Ok s') => (forall i, s_get_link cf s i = s_get_link cf s' i) /\ s_count cf s [] = s_count cf s' [] /\
      forall H (h : rhandler H) z, s_each cf h [] s z = s_each cf h [] s' z
  | Val (Err e), Val (Err e') => e = e'
  | Panic, Panic | UB, UB | Diverge, Diverge => True
  | _, _ => False
  end.
(** Opening the memory as it was left. *)
Definition u_again (cf : cfg) (st : ust) (orc : nat -> N -> bool) : out (result ust) := u_open cf (u_persist st orc).
Definition s_again (cf : cfg) (st : sst) (orc : nat -> N -> N -> grown) : out (result sst) := s_open cf (s_persist st orc).

(** * The trees and the programs on them *)
Inductive u_tree := Sources | Targets.
Definition u_run (tr : u_tree) {A} (p : prog A) (m : mem) : out (A * mem) :=
  match tr with Sources => on_memory us_acc us_root p m | Targets => on_memory ut_acc ut_root p m end.
(** The column and the root of a tree, and a program on them alone. *)
Definition u_col (tr : u_tree) (st : ust) : N -> nd := match tr with Sources => u_src st | Targets => u_tgt st end.
Definition u_bare (tr : u_tree) (st : ust) {A} (p : prog A) : out (A * (N -> nd) * N) :=
  match tr with
  | Sources => on_tree (u_len st) (u_len st) (key_src (u_data st)) p (u_src st) (h_sroot st)
  | Targets => on_tree (u_len st) (u_len st) (key_tgt (u_data st)) p (u_tgt st) (h_troot st)
  end.
(** The trees inside one link [v] and those of the header, split/store.rs:174-257. *)
Inductive s_tree := SourcesOf (v : N) | TargetsOf (v : N) | OuterSources | OuterTargets.
Definition s_run (tr : s_tree) {A} (p : prog A) (m : mem) : out (A * mem) :=
  match tr with
  | SourcesOf v => on_memory is_acc (is_root v) p m
  | TargetsOf v => on_memory it_acc (it_root v) p m
  | OuterSources => on_memory es_acc es_root p m
  | OuterTargets => on_memory et_acc et_root p m
  end.
Definition s_col (tr : s_tree) (st : sst) : N -> nd := match tr with SourcesOf _ | OuterSources => s_is st | _ => s_it st end.
Definition s_bare (tr : s_tree) (st : sst) {A} (p : prog A) : out (A * (N -> nd) * N) :=
  match tr with
  | SourcesOf v => on_tree (s_dlen st) (s_ilen st) (key_is (s_data st)) p (s_is st) (s_rs st v)
  | TargetsOf v => on_tree (s_dlen st) (s_ilen st) (key_it (s_data st)) p (s_it st) (s_rt st v)
  | OuterSources => on_tree (s_dlen st) (s_ilen st) (key_src (s_data st)) p (s_is st) (sh_sroot st)
  | OuterTargets => on_tree (s_dlen st) (s_ilen st) (key_tgt (s_data st)) p (s_it st) (sh_troot st)
  end.
Definition real_tree (tr : s_tree) : Prop := match tr with SourcesOf v | TargetsOf v => v <> 0 | _ => True end.
(** The trees whose sizes say whether a link is in use (unit/store.rs:190-200, split/store.rs:315-325). *)
Definition u_counts (tr : u_tree) : bool := match tr with Sources => true | _ => false end.
Definition s_counts (tr : s_tree) : bool := match tr with TargetsOf _ | OuterTargets => true | _ => false end.

(** While the program runs, no node other than [i] gets size zero, or a size it had not. *)
Definition leaves_others (bare : nat -> out (unit * (N -> nd) * N)) (c : N -> nd) (i : N) : Prop :=
  forall n c' r, bare n = Val (tt, c', r) -> forall j, j <> i -> (nz (c' j) = 0 <-> nz (c j) = 0).
(** [q] is one tree operation on the state [st], entering or taking out [i], and leaves [st']. *)
Definition u_op (tr : u_tree) (q : prog unit) (i : N) (st st' : ust) : Prop :=
  (exists r, u_bare tr st q = Val r) /\ (exists m, u_run tr q (u_mem st) = Val (tt, m) /\ same_mem m (u_mem st')) /\
  (u_counts tr = true -> leaves_others (fun n => u_bare tr st (cut n q)) (u_col tr st) i /\
     (nz (u_col tr st i) = 0 <-> nz (u_col tr st' i) <> 0)).
Definition s_op (tr : s_tree) (q : prog unit) (i : N) (st st' : sst) : Prop :=
  real_tree tr /\ (exists r, s_bare tr st q = Val r) /\ (exists m, s_run tr q (s_mem st) = Val (tt, m) /\ same_mem m (s_mem st')) /\
  (s_counts tr = true -> leaves_others (fun n => s_bare tr st (cut n q)) (s_col tr st) i /\
     (nz (s_col tr st i) = 0 <-> nz (s_col tr st' i) <> 0)).
(** [sn] is the memory after [n] accesses. *)
Definition u_in_op (tr : u_tree) (q : prog unit) (n : nat) (st sn : ust) : Prop :=
  exists m, u_run tr (cut n q) (u_mem st) = Val (tt, m) /\ same_mem m (u_mem sn).
Definition s_in_op (tr : s_tree) (q : prog unit) (n : nat) (st sn : sst) : Prop :=
  exists m, s_run tr (cut n q) (s_mem st) = Val (tt, m) /\ same_mem m (s_mem sn).

(** * Memories that read alike *)
Definition u_look (a b : ust) : Prop :=
  (forall j, u_data a j = u_data b j) /\ h_free a = h_free b /\ h_first a = h_first b /\
  forall j, j <> 0 -> (nz (u_src a j) = 0 <-> nz (u_src b j) = 0).
Definition s_look (a b : sst) : Prop :=
  (forall j, s_data a j = s_data b j) /\ sh_alloc a = sh_alloc b /\ sh_free a = sh_free b /\ sh_first a = sh_first b /\
  forall j, j <> 0 -> (nz (s_it a j) = 0 <-> nz (s_it b j) = 0).

Lemma eqb_iff a b : (a = 0 <-> b = 0) -> (a =? 0) = (b =? 0).
Proof. intros E. destruct (N.eqb_spec a 0), (N.eqb_spec b 0); tauto. Qed.

Lemma u_look_reads cf a b : cfg_ok cf -> u_look a b -> u_len a = u_len b ->
  (forall i, u_get_link cf a i = u_get_link cf b i) /\ u_count cf a [] = u_count cf b [] /\
  forall H (h : rhandler H) z, u_each cf h [] a z = u_each cf h [] b z.
Proof.
  intros CF (D & F & FF & Z) L.
  assert (HA : h_alloc a = h_alloc b) by (unfold h_alloc; now rewrite D).
  assert (HH : u_header a = u_header b) by (unfold u_header; now rewrite L).
  assert (G : forall i, u_get_link cf a i = u_get_link cf b i).
  { intros i. unfold u_get_link, u_exists, u_is_unused, rd_unchecked. rewrite HH, HA, FF, L, D, (ok_istart _ CF).
    destruct (u_header b); cbn [obind]; auto. destruct (N.leb_spec 1 i) as [I|I]; cbn [andb]; [|reflexivity].
    destruct (i <=? h_alloc b); cbn [andb]; [|reflexivity]. destruct (negb (h_first b =? i)); [|reflexivity].
    destruct (i <? u_len b); cbn [obind]; [|reflexivity].
    rewrite (eqb_iff _ _ (Z i ltac:(lia))). reflexivity. }
  split; [exact G|]. split.
  - unfold u_count, u_get_total. rewrite HH, HA, F. reflexivity.
  - intros H h z. unfold u_each, u_each_all. rewrite HH, HA. destruct (u_header b); cbn [obind]; auto.
    generalize (range1 (h_alloc b)). intros l. revert z. induction l as [|i l IH]; intros z; [reflexivity|].
    cbn [u_each_idx]. rewrite G. destruct (u_get_link cf b i) as [[lk|]| | |]; cbn [obind]; auto.
    destruct (h z lk) as [z' []]; auto.
Qed.
Lemma s_look_reads cf a b : cfg_ok cf -> s_look a b -> s_dlen a = s_dlen b -> s_dcap a = s_dcap b -> s_ilen a = s_ilen b ->
  (forall i, s_get_link cf a i = s_get_link cf b i) /\ s_count cf a [] = s_count cf b [] /\
  forall H (h : rhandler H) z, s_each cf h [] a z = s_each cf h [] b z.
Proof.
  intros CF (D & HA & F & FF & Z) L LC LI.
  assert (HH : s_header a = s_header b) by (unfold s_header; now rewrite LI).
  assert (HV : s_view a = s_view b) by (unfold s_view; now rewrite L, LC).
  assert (G : forall i, s_get_link cf a i = s_get_link cf b i).
  { intros i. unfold s_get_link, s_exists, s_is_unused, s_get_data, s_get_data_unchecked, rd, rd_unchecked. rewrite HH, HA, FF, L, LI, HV, D, (ok_istart _ CF).
    destruct (s_header b); cbn [obind]; auto. destruct (N.leb_spec 1 i) as [I|I]; cbn [andb]; [|reflexivity].
    destruct (i <=? sh_alloc b); cbn [andb]; [|reflexivity]. destruct (negb (sh_first b =? i)); [|reflexivity].
    destruct (i <? s_ilen b); cbn [obind]; [|reflexivity].
    rewrite (eqb_iff _ _ (Z i ltac:(lia))). reflexivity. }
  split; [exact G|]. split.
  - unfold s_count, s_total. rewrite HH, HA, F. reflexivity.
  - intros H h z. unfold s_each, s_each_all. rewrite HH, HA. destruct (s_header b); cbn [obind]; auto.
    generalize (range1 (sh_alloc b)). intros l. revert z. induction l as [|i l IH]; intros z; [reflexivity|].
    cbn [s_each_idx]. rewrite G. destruct (s_get_link cf b i) as [[lk|]| | |]; cbn [obind]; auto.
    destruct (h z lk) as [z' []]; auto.
Qed.

Lemma u_look_open cf a b orc : cfg_ok cf -> u_look a b -> u_alike cf (u_again cf a orc) (u_again cf b orc).
Proof.
  intros CF (D & F & FF & Z). unfold u_again, u_open, u_persist, u_alloc_mem. cbn [u_orc].
  destruct (orc 0%nat (c_page cf)); [|reflexivity]. unfold u_header. cbn [u_len].
  destruct (0 <? c_page cf); cbn [obind]; [|exact I].
  unfold h_alloc. cbn [u_data u_orc u_src u_tgt]. rewrite D.
  destruct (orc 1%nat _); [|reflexivity]. cbn [u_len]. destruct (0 <? _); cbn [obind]; [|exact I].
  destruct (csub _ 1) as [r1| | |]; cbn [obind]; try exact I. destruct (ctry (c_tmax cf) r1) as [r| | |]; cbn [obind]; try exact I.
  apply u_look_reads; auto. split; [|auto].
  intros j. unfold set_reserved, set_data. cbn [u_data]. unfold upd. destruct (j =? 0); [|apply D]. unfold h_alloc. cbn [u_data]. now rewrite D.
Qed.
Lemma s_look_open cf a b orc : cfg_ok cf -> s_look a b -> s_alike cf (s_again cf a orc) (s_again cf b orc).
Proof.
  intros CF (D & HA & F & FF & Z). unfold s_again, s_open, s_persist, s_alloc_mem. cbn [s_orc].
  destruct (orc 0%nat (c_page cf) (c_page cf)); cbn [negb]; try exact eq_refl.
  unfold s_header. cbn [s_ilen]. destruct (0 <? c_page cf); cbn [obind]; [|exact I].
  unfold sh_alloc in HA |- *. cbn [s_rs s_dcap s_ilen s_orc]. rewrite HA.
  destruct (orc 1%nat _ _); cbn [negb]; try exact eq_refl. cbn [s_ilen]. destruct (0 <? _); cbn [obind]; [|exact I].
  cbn [s_dcap]. destruct (csub _ 1) as [r1| | |]; cbn [obind]; try exact I. destruct (ctry (c_tmax cf) r1) as [r| | |]; cbn [obind]; try exact I.
  apply s_look_reads; auto. split; [exact D|]. split; [exact HA|].
  unfold s_set_reserved, s_set_src, sh_free, sh_first in *. cbn [s_is s_it] in *. rewrite !upd_same. cbn [nr nz]. auto.
Qed.

(** * Between the accesses *)
Lemma zero_kept A klen len k (p : prog A) : forall c root a c' r', on_tree klen len k p c root = Val (a, c', r') -> c' 0 = c 0.
Proof.
  assert (ND : forall B (n : N) (x : out B) r, node len n x = Val r -> n <> 0 /\ x = Val r).
  { intros B n x r. unfold node. destruct (N.eqb_spec n 0); [discriminate|]. destruct (n <? _); [auto|discriminate]. }
  assert (ND2 : forall B (a b : N) (x : out B) r, nodes klen a b x = Val r -> x = Val r).
  { intros B a b x r. unfold nodes. destruct (_ || _); [discriminate|]. destruct (_ && _); [auto|discriminate]. }
  induction p as [o|n q IH|n q IH|n q IH|n v q IH|n v q IH|n v q IH|n q IH|n m q IH|n m q IH|rf q IH|rf v q IH]; intros c root a c' r' E; cbn [on_tree] in E.
  - destruct o; cbn [obind] in E; try discriminate. injection E as _ <- <-. reflexivity.
  - apply ND in E as [_ E]. eapply IH; eauto.
  - apply ND in E as [_ E]. eapply IH; eauto.
  - apply ND in E as [_ E]. eapply IH; eauto.
  - apply ND in E as [? E]. apply IH in E. rewrite upd_other in E; auto.
  - apply ND in E as [? E]. apply IH in E. rewrite upd_other in E; auto.
  - apply ND in E as [? E]. apply IH in E. rewrite upd_other in E; auto.
  - apply ND in E as [? E]. apply IH in E. rewrite upd_other in E; auto.
  - apply ND2 in E. eapply IH; eauto.
  - apply ND2 in E. eapply IH; eauto.
  - destruct rf; [|apply ND in E as [_ E]|apply ND in E as [_ E]]; eapply IH; eauto.
  - destruct rf; [|apply ND in E as [? E]|apply ND in E as [? E]]; apply IH in E; auto; rewrite upd_other in E; auto.
Qed.
Lemma s_mem_cols a b : same_mem (s_mem a) (s_mem b) ->
  (forall j, s_data a j = s_data b j) /\ (forall j, s_rs a j = s_rs b j) /\ (forall j, s_is a j = s_is b j) /\
  (forall j, s_rt a j = s_rt b j) /\ (forall j, s_it a j = s_it b j).
Proof.
  intros (_ & _ & WD & WI). cbn [s_mem m_data m_index sl_w] in WD, WI.
  assert (Q : forall j, s_data a j = s_data b j /\ s_rs a j = s_rs b j /\ s_is a j = s_is b j /\ s_rt a j = s_rt b j /\ s_it a j = s_it b j).
  { intros j. pose proof (L_C63_split_reads a j) as A. pose proof (L_C63_split_reads b j) as B. cbv zeta in A, B.
    destruct A as (_ & _ & _ & _ & _ & _ & _ & A1 & A2 & A3 & A4 & A5 & A6 & A7 & A8 & A9 & A10), B as (_ & _ & _ & _ & _ & _ & _ & B1 & B2 & B3 & B4 & B5 & B6 & B7 & B8 & B9 & B10).
    rewrite WI in A1, A2, A3, A4, A5, A6, A7, A8. rewrite WD in A9, A10.
    rewrite A1 in B1. rewrite A2 in B2. rewrite A3 in B3. rewrite A4 in B4. rewrite A5 in B5. rewrite A6 in B6. rewrite A7 in B7. rewrite A8 in B8. rewrite A9 in B9. rewrite A10 in B10.
    destruct (s_data a j), (s_data b j), (s_is a j), (s_is b j), (s_it a j), (s_it b j). cbn in *. repeat split; congruence. }
  repeat split; intros j; apply Q.
Qed.

(** The memory after [n] accesses: one column and one root are new. *)
Lemma u_in_op_cols tr q n st sn : (exists r, u_bare tr st q = Val r) -> u_in_op tr q n st sn ->
  exists c r, u_bare tr st (cut n q) = Val (tt, c, r) /\ c 0 = u_col tr st 0 /\
    match tr with
    | Sources => (forall j, u_data sn j = u_data st j) /\ (forall j, u_src sn j = set_sroot c r j)
    | Targets => (forall j, u_data sn j = u_data st j) /\ (forall j, u_src sn j = u_src st j)
    end.
Proof.
  intros [r0 EN] (m & EM & SM). destruct tr; cbn [u_bare u_run] in EN, EM.
  - destruct (cut_val _ _ _ _ _ n _ _ _ EN) as (c & r & E). exists c, r. split; [exact E|].
    split; [exact (zero_kept _ _ _ _ _ _ _ _ _ _ E)|].
    destruct (L_C75_unit st unit (cut n q)) as [SS _]. rewrite E in SS. cbn [agree] in SS. destruct SS as (m' & EM' & SM').
    rewrite EM in EM'. injection EM' as <-.
    destruct (mem_cols sn (set_src st (set_sroot c r))) as (_ & CO); [eapply same_trans; [apply same_sym; exact SM|exact SM']|].
    split; intros j; apply CO.
  - destruct (cut_val _ _ _ _ _ n _ _ _ EN) as (c & r & E). exists c, r. split; [exact E|].
    split; [exact (zero_kept _ _ _ _ _ _ _ _ _ _ E)|].
    destruct (L_C75_unit st unit (cut n q)) as [_ SS]. rewrite E in SS. cbn [agree] in SS. destruct SS as (m' & EM' & SM').
    rewrite EM in EM'. injection EM' as <-.
    destruct (mem_cols sn (set_tgt st (set_troot c r))) as (_ & CO); [eapply same_trans; [apply same_sym; exact SM|exact SM']|].
    split; intros j; apply CO.
Qed.
(** The whole program is its first accesses, if enough of them are taken. *)
Lemma cut_all A (p : prog A) : forall klen len k c root a c' r', on_tree klen len k p c root = Val (a, c', r') ->
  exists n, on_tree klen len k (cut n p) c root = Val (tt, c', r').
Proof.
  intros klen len k.
  assert (ND : forall B (n : N) (x : out B) r, node len n x = Val r -> x = Val r /\ forall C (y : out C), node len n y = y).
  { intros B n x r. unfold node. destruct (n =? 0); [discriminate|]. destruct (n <? len); [auto|discriminate]. }
  assert (ND2 : forall B (a b : N) (x : out B) r, nodes klen a b x = Val r -> x = Val r /\ forall C (y : out C), nodes klen a b y = y).
  { intros B a b x r. unfold nodes. destruct (_ || _); [discriminate|]. destruct (_ && _); [auto|discriminate]. }
  induction p as [o|n q IH|n q IH|n q IH|n v q IH|n v q IH|n v q IH|n q IH|n m q IH|n m q IH|rf q IH|rf v q IH]; intros c root a c' r' E; cbn [on_tree] in E.
  - exists 0%nat. destruct o; cbn [obind] in E; try discriminate. injection E as _ <- <-. reflexivity.
  - apply ND in E as [E V]. apply IH in E as [x E]. exists (S x). cbn [cut on_tree]. now rewrite V.
  - apply ND in E as [E V]. apply IH in E as [x E]. exists (S x). cbn [cut on_tree]. now rewrite V.
  - apply ND in E as [E V]. apply IH in E as [x E]. exists (S x). cbn [cut on_tree]. now rewrite V.
  - apply ND in E as [E V]. apply IH in E as [x E]. exists (S x). cbn [cut on_tree]. now rewrite V.
  - apply ND in E as [E V]. apply IH in E as [x E]. exists (S x). cbn [cut on_tree]. now rewrite V.
  - apply ND in E as [E V]. apply IH in E as [x E]. exists (S x). cbn [cut on_tree]. now rewrite V.
  - apply ND in E as [E V]. apply IH in E as [x E]. exists (S x). cbn [cut on_tree]. now rewrite V.
  - apply ND2 in E as [E V]. apply IH in E as [x E]. exists (S x). cbn [cut on_tree]. now rewrite V.
  - apply ND2 in E as [E V]. apply IH in E as [x E]. exists (S x). cbn [cut on_tree]. now rewrite V.
  - destruct rf; [|apply ND in E as [E V]|apply ND in E as [E V]]; apply IH in E as [x E]; exists (S x); cbn [cut on_tree]; rewrite ?V; auto.
  - destruct rf; [|apply ND in E as [E V]|apply ND in E as [E V]]; apply IH in E as [x E]; exists (S x); cbn [cut on_tree]; rewrite ?V; auto.
Qed.
Lemma u_op_is_in_op tr q i st st' : u_op tr q i st st' -> exists n, u_in_op tr q n st st'.
Proof.
  intros ([[[[] c] r] EN] & (m & EM & SM) & _). destruct tr; cbn [u_bare u_run] in EN, EM.
  - destruct (cut_all _ _ _ _ _ _ _ _ _ _ EN) as [n E]. exists n. cbn [u_in_op u_run].
    destruct (L_C75_unit st unit q) as [S1 _]. rewrite EN in S1. cbn [agree] in S1. destruct S1 as (m1 & EM1 & SM1).
    rewrite EM in EM1. injection EM1 as <-.
    destruct (L_C75_unit st unit (cut n q)) as [S2 _]. rewrite E in S2. cbn [agree] in S2. destruct S2 as (m2 & EM2 & SM2).
    exists m2. split; [exact EM2|]. eapply same_trans; [exact SM2|]. eapply same_trans; [apply same_sym; exact SM1|exact SM].
  - destruct (cut_all _ _ _ _ _ _ _ _ _ _ EN) as [n E]. exists n. cbn [u_in_op u_run].
    destruct (L_C75_unit st unit q) as [_ S1]. rewrite EN in S1. cbn [agree] in S1. destruct S1 as (m1 & EM1 & SM1).
    rewrite EM in EM1. injection EM1 as <-.
    destruct (L_C75_unit st unit (cut n q)) as [_ S2]. rewrite E in S2. cbn [agree] in S2. destruct S2 as (m2 & EM2 & SM2).
    exists m2. split; [exact EM2|]. eapply same_trans; [exact SM2|]. eapply same_trans; [apply same_sym; exact SM1|exact SM].
Qed.
Lemma u_alike_trans cf x y z : u_alike cf x y -> u_alike cf y z -> u_alike cf x z.
Proof.
  unfold u_alike. destruct x as [[x|e]| | |], y as [[y|e']| | |], z as [[z|e'']| | |]; try tauto; [|congruence].
  intros (A1 & A2 & A3) (B1 & B2 & B3). split; [|split]; intros; [rewrite A1; auto|congruence|rewrite A3; auto].
Qed.
Lemma s_alike_trans cf x y z : s_alike cf x y -> s_alike cf y z -> s_alike cf x z.
Proof.
  unfold s_alike. destruct x as [[x|e]| | |], y as [[y|e']| | |], z as [[z|e'']| | |]; try tauto; [|congruence].
  intros (A1 & A2 & A3) (B1 & B2 & B3). split; [|split]; intros; [rewrite A1; auto|congruence|rewrite A3; auto].
Qed.
Lemma u_in_op_0 tr q st : u_in_op tr q 0 st st.
Proof. exists (u_mem st). split; [destruct tr; reflexivity|apply same_refl]. Qed.
(** Unit store. *)
Lemma u_in_op_look tr q i st st' n sn n' sn' : u_op tr q i st st' -> u_in_op tr q n st sn -> u_in_op tr q n' st sn' ->
  (u_counts tr = true -> (nz (u_col tr sn i) = 0 <-> nz (u_col tr sn' i) = 0)) -> u_look sn sn'.
Proof.
  intros (EN & _ & LO) IN IN' NI. destruct (u_in_op_cols _ _ _ _ _ EN IN) as (c & r & E & C0 & CO).
  destruct (u_in_op_cols _ _ _ _ _ EN IN') as (c' & r' & E' & C0' & CO').
  destruct tr; destruct CO as [D S], CO' as [D' S']; cbn [u_col u_counts] in *.
  - destruct (LO eq_refl) as [L _]. split; [intros j; now rewrite D, D'|].
    assert (S0 := S 0). assert (S0' := S' 0). unfold set_sroot in S0, S0'. rewrite upd_same in S0, S0'.
    unfold h_free, h_first. rewrite S0, S0'. cbn [nl nr]. rewrite C0, C0'. do 2 (split; [reflexivity|]).
    intros j J. destruct (N.eq_dec j i) as [->|NE]; [exact (NI eq_refl)|]. rewrite S, S'. unfold set_sroot. rewrite !upd_other by auto.
    rewrite (L n c r E j NE), (L n' c' r' E' j NE). reflexivity.
  - split; [intros j; now rewrite D, D'|]. unfold h_free, h_first. rewrite S, S'. do 2 (split; [reflexivity|]). intros j _. now rewrite S, S'.
Qed.
(** Split store. *)
Lemma s_in_op_cols tr q n st sn : real_tree tr -> (exists r, s_bare tr st q = Val r) -> s_in_op tr q n st sn ->
  exists c r, s_bare tr st (cut n q) = Val (tt, c, r) /\
    (forall j, s_data sn j = s_data st j) /\ sh_alloc sn = sh_alloc st /\ sh_free sn = sh_free st /\ sh_first sn = sh_first st /\
    (s_counts tr = false -> forall j, j <> 0 -> s_it sn j = s_it st j) /\
    (s_counts tr = true -> forall j, j <> 0 -> s_it sn j = c j).
Proof.
  intros RT [r0 EN] (m & EM & SM). destruct (L_C75_split st (match tr with SourcesOf v | TargetsOf v => v | _ => 0 end) unit (cut n q)) as (S1 & S2 & S3 & S4).
  destruct tr as [v|v| |]; cbn [s_bare s_run s_counts real_tree] in *.
  - destruct (cut_val _ _ _ _ _ n _ _ _ EN) as (c & r & E). exists c, r. split; [exact E|]. pose proof (zero_kept _ _ _ _ _ _ _ _ _ _ E) as Z0.
    rewrite E in S1. cbn [agree] in S1. destruct S1 as (m' & EM' & SM'). rewrite EM in EM'. injection EM' as <-.
    destruct (s_mem_cols sn (s_set_src st (upd (s_rs st) v r) c)) as (C1 & C2 & C3 & C4 & C5); [eapply same_trans; [apply same_sym; exact SM|exact SM']|].
    cbn [s_set_src s_data s_rs s_is s_rt s_it] in *. unfold sh_alloc, sh_free, sh_first. rewrite C2, C3, Z0, upd_other by auto. repeat (split; [auto; fail|]). discriminate.
  - destruct (cut_val _ _ _ _ _ n _ _ _ EN) as (c & r & E). exists c, r. split; [exact E|]. pose proof (zero_kept _ _ _ _ _ _ _ _ _ _ E) as Z0.
    rewrite E in S2. cbn [agree] in S2. destruct S2 as (m' & EM' & SM'). rewrite EM in EM'. injection EM' as <-.
    destruct (s_mem_cols sn (s_set_tgt st (upd (s_rt st) v r) c)) as (C1 & C2 & C3 & C4 & C5); [eapply same_trans; [apply same_sym; exact SM|exact SM']|].
    cbn [s_set_tgt s_data s_rs s_is s_rt s_it] in *. unfold sh_alloc, sh_free, sh_first. rewrite C2, C3. repeat (split; [auto; fail|]). split; [discriminate|auto].
  - destruct (cut_val _ _ _ _ _ n _ _ _ EN) as (c & r & E). exists c, r. split; [exact E|]. pose proof (zero_kept _ _ _ _ _ _ _ _ _ _ E) as Z0.
    rewrite E in S3. cbn [agree] in S3. destruct S3 as (m' & EM' & SM'). rewrite EM in EM'. injection EM' as <-.
    destruct (s_mem_cols sn (s_set_tgt (s_set_src st (s_rs st) c) (upd (s_rt st) 0 r) (s_it st))) as (C1 & C2 & C3 & C4 & C5); [eapply same_trans; [apply same_sym; exact SM|exact SM']|].
    cbn [s_set_src s_set_tgt s_data s_rs s_is s_rt s_it] in *. unfold sh_alloc, sh_free, sh_first. rewrite C2, C3, Z0. repeat (split; [auto; fail|]). discriminate.
  - destruct (cut_val _ _ _ _ _ n _ _ _ EN) as (c & r & E). exists c, r. split; [exact E|]. pose proof (zero_kept _ _ _ _ _ _ _ _ _ _ E) as Z0.
    rewrite E in S4. cbn [agree] in S4. destruct S4 as (m' & EM' & SM'). rewrite EM in EM'. injection EM' as <-.
    destruct (s_mem_cols sn (s_set_tgt st (s_rt st) (set_troot c r))) as (C1 & C2 & C3 & C4 & C5); [eapply same_trans; [apply same_sym; exact SM|exact SM']|].
    cbn [s_set_tgt s_data s_rs s_is s_rt s_it] in *. unfold sh_alloc, sh_free, sh_first. rewrite C2, C3. repeat (split; [auto; fail|]). split; [discriminate|].
    intros _ j J. rewrite C5. unfold set_troot. now rewrite upd_other.
Qed.
Lemma s_op_is_in_op tr q i st st' : s_op tr q i st st' -> exists n, s_in_op tr q n st st'.
Proof.
  intros (_ & [[[[] c] r] EN] & (m & EM & SM) & _).
  destruct (L_C75_split st (match tr with SourcesOf v | TargetsOf v => v | _ => 0 end) unit q) as (A1 & A2 & A3 & A4).
  assert (Q : exists n, s_bare tr st (cut n q) = Val (tt, c, r)).
  { destruct tr as [v|v| |]; cbn [s_bare] in *; exact (cut_all _ _ _ _ _ _ _ _ _ _ EN). }
  destruct Q as [n E]. exists n. unfold s_in_op.
  destruct (L_C75_split st (match tr with SourcesOf v | TargetsOf v => v | _ => 0 end) unit (cut n q)) as (S1 & S2 & S3 & S4).
  destruct tr as [v|v| |]; cbn [s_bare s_run] in *; [clear A2 A3 A4 S2 S3 S4; rename A1 into A, S1 into S|clear A1 A3 A4 S1 S3 S4; rename A2 into A, S2 into S|
    clear A1 A2 A4 S1 S2 S4; rename A3 into A, S3 into S|clear A1 A2 A3 S1 S2 S3; rename A4 into A, S4 into S].
  all: rewrite EN in A; cbn [agree] in A; destruct A as (m1 & EM1 & SM1); rewrite EM in EM1; injection EM1 as <-.
  all: rewrite E in S; cbn [agree] in S; destruct S as (m2 & EM2 & SM2).
  all: exists m2; split; [exact EM2|]; eapply same_trans; [exact SM2|]; eapply same_trans; [apply same_sym; exact SM1|exact SM].
Qed.
Lemma s_in_op_0 tr q st : s_in_op tr q 0 st st.
Proof. exists (s_mem st). split; [destruct tr; reflexivity|apply same_refl]. Qed.
Lemma s_in_op_look tr q i st st' n sn n' sn' : s_op tr q i st st' -> s_in_op tr q n st sn -> s_in_op tr q n' st sn' ->
  (s_counts tr = true -> (nz (s_it sn i) = 0 <-> nz (s_it sn' i) = 0)) -> s_look sn sn'.
Proof.
  intros (RT & EN & _ & LO) IN IN' NI. destruct (s_in_op_cols _ _ _ _ _ RT EN IN) as (c & r & E & D & A & F & FF & T0 & T1).
  destruct (s_in_op_cols _ _ _ _ _ RT EN IN') as (c' & r' & E' & D' & A' & F' & FF' & T0' & T1').
  split; [intros j; now rewrite D, D'|]. split; [congruence|]. split; [congruence|]. split; [congruence|].
  intros j J. destruct (s_counts tr) eqn:SC.
  - destruct (LO eq_refl) as [L _]. destruct (N.eq_dec j i) as [->|NE]; [exact (NI eq_refl)|].
    rewrite (T1 eq_refl j J), (T1' eq_refl j J), (L n c r E j NE), (L n' c' r' E' j NE). reflexivity.
  - rewrite (T0 eq_refl j J), (T0' eq_refl j J). reflexivity.
Qed.

(** * C78 *)
(** Between two accesses inside a tree operation, the reopened store shows what it shows if the
    process stops before the operation, or what it shows if it stops after it. *)
Lemma L_C78_unit cf tr q i st st' n sn orc : cfg_ok cf -> u_op tr q i st st' -> u_in_op tr q n st sn ->
  u_alike cf (u_again cf sn orc) (u_again cf st orc) \/ u_alike cf (u_again cf sn orc) (u_again cf st' orc).
Proof.
  intros CF OP IN. destruct (u_op_is_in_op _ _ _ _ _ OP) as [n' IN'].
  destruct (u_counts tr) eqn:UC.
  - destruct OP as (EN & EM & LO). destruct (LO UC) as [L X].
    destruct (N.eq_dec (nz (u_col tr sn i)) 0) as [Z|Z], (N.eq_dec (nz (u_col tr st i)) 0) as [Z'|Z'].
    + left. apply u_look_open; auto. eapply u_in_op_look; [exact (conj EN (conj EM LO))|exact IN|apply u_in_op_0|tauto].
    + right. apply u_look_open; auto. eapply u_in_op_look; [exact (conj EN (conj EM LO))|exact IN|exact IN'|].
      intros _. destruct (N.eq_dec (nz (u_col tr st' i)) 0); tauto.
    + right. apply u_look_open; auto. eapply u_in_op_look; [exact (conj EN (conj EM LO))|exact IN|exact IN'|tauto].
    + left. apply u_look_open; auto. eapply u_in_op_look; [exact (conj EN (conj EM LO))|exact IN|apply u_in_op_0|tauto].
  - left. apply u_look_open; auto. eapply u_in_op_look; [exact OP|exact IN|apply u_in_op_0|congruence].
Qed.
Lemma L_C78_split cf tr q i st st' n sn orc : cfg_ok cf -> s_op tr q i st st' -> s_in_op tr q n st sn ->
  s_alike cf (s_again cf sn orc) (s_again cf st orc) \/ s_alike cf (s_again cf sn orc) (s_again cf st' orc).
Proof.
  intros CF OP IN. destruct (s_op_is_in_op _ _ _ _ _ OP) as [n' IN'].
  destruct (s_counts tr) eqn:UC.
  - destruct OP as (RT & EN & EM & LO). destruct (LO UC) as [L X]. assert (CO : forall z, s_col tr z = s_it z) by (destruct tr; (discriminate || reflexivity)).
    rewrite !CO in X.
    destruct (N.eq_dec (nz (s_it sn i)) 0) as [Z|Z], (N.eq_dec (nz (s_it st i)) 0) as [Z'|Z'].
    + left. apply s_look_open; auto. eapply s_in_op_look; [exact (conj RT (conj EN (conj EM LO)))|exact IN|apply s_in_op_0|tauto].
    + right. apply s_look_open; auto. eapply s_in_op_look; [exact (conj RT (conj EN (conj EM LO)))|exact IN|exact IN'|].
      intros _. destruct (N.eq_dec (nz (s_it st' i)) 0); tauto.
    + right. apply s_look_open; auto. eapply s_in_op_look; [exact (conj RT (conj EN (conj EM LO)))|exact IN|exact IN'|tauto].
    + left. apply s_look_open; auto. eapply s_in_op_look; [exact (conj RT (conj EN (conj EM LO)))|exact IN|apply s_in_op_0|tauto].
  - left. apply s_look_open; auto. eapply s_in_op_look; [exact OP|exact IN|apply s_in_op_0|congruence].
Qed.
(** In the trees whose sizes do not say whether a link is in use, it makes no difference where it stops. *)
Lemma L_C78_no_matter cf tr tr' q i st st' n sn ss ss' sn' orc orc' : cfg_ok cf ->
  (u_counts tr = false -> u_op tr q i st st' -> u_in_op tr q n st sn ->
     u_alike cf (u_again cf sn orc) (u_again cf st orc) /\ u_alike cf (u_again cf sn orc) (u_again cf st' orc)) /\
  (s_counts tr' = false -> s_op tr' q i ss ss' -> s_in_op tr' q n ss sn' ->
     s_alike cf (s_again cf sn' orc') (s_again cf ss orc') /\ s_alike cf (s_again cf sn' orc') (s_again cf ss' orc')).
Proof.
  intros CF. split.
  - intros UC OP IN. destruct (u_op_is_in_op _ _ _ _ _ OP) as [n' IN'].
    split; apply u_look_open; auto; eapply u_in_op_look; try exact OP; try exact IN; try exact IN'; try apply u_in_op_0; congruence.
  - intros UC OP IN. destruct (s_op_is_in_op _ _ _ _ _ OP) as [n' IN'].
    split; apply s_look_open; auto; eapply s_in_op_look; try exact OP; try exact IN; try exact IN'; try apply s_in_op_0; congruence.
Qed.

(** ** The operations of the split store *)
Definition s_tree_do (tops : tree_ops) (attach : bool) (tr : s_tree) (st : sst) (x : N) : out sst :=
  match tr, attach with
  | SourcesOf v, true => s_attach_is tops st v x | SourcesOf v, false => s_detach_is tops st v x
  | TargetsOf v, true => s_attach_it tops st v x | TargetsOf v, false => s_detach_it tops st v x
  | OuterSources, true => s_attach_es tops st x | OuterSources, false => s_detach_es tops st x
  | OuterTargets, true => s_attach_et tops st x | OuterTargets, false => s_detach_et tops st x
  end.
Definition s_place (tr : s_tree) : place := match tr with SourcesOf v | TargetsOf v => Int v | _ => Ext end.
Definition s_key (tr : s_tree) (st : sst) : N -> key :=
  match tr with SourcesOf _ => key_is (s_data st) | TargetsOf _ => key_it (s_data st) | OuterSources => key_src (s_data st) | OuterTargets => key_tgt (s_data st) end.
Definition s_root (tr : s_tree) (st : sst) : N :=
  match tr with SourcesOf v => s_rs st v | TargetsOf v => s_rt st v | OuterSources => sh_sroot st | OuterTargets => sh_troot st end.
Definition s_put (tr : s_tree) (st : sst) (c : N -> nd) (r : N) : sst :=
  match tr with
  | SourcesOf v => s_set_src st (upd (s_rs st) v r) c
  | TargetsOf v => s_set_tgt st (upd (s_rt st) v r) c
  | OuterSources => s_set_tgt (s_set_src st (s_rs st) c) (upd (s_rt st) 0 r) (s_it st)
  | OuterTargets => s_set_tgt st (s_rt st) (set_troot c r)
  end.
Lemma s_bare_is tr st A (p : prog A) : s_bare tr st p = on_tree (s_dlen st) (s_ilen st) (s_key tr st) p (s_col tr st) (s_root tr st).
Proof. destruct tr; reflexivity. Qed.
Lemma s_agree tr st A (p : prog A) : agree (fun c r => s_mem (s_put tr st c r)) (s_bare tr st p) (s_run tr p (s_mem st)).
Proof.
  destruct (L_C75_split st (match tr with SourcesOf v | TargetsOf v => v | _ => 0 end) A p) as (A1 & A2 & A3 & A4). destruct tr; assumption.
Qed.
Lemma s_put_ext tr st c c' r : (forall i, c i = c' i) -> Accessors.same_mem (s_mem (s_put tr st c r)) (s_mem (s_put tr st c' r)).
Proof.
  intros E. destruct tr as [v|v| |].
  - destruct (holds_is st v) as (_ & _ & _ & _ & _ & _ & HE). exact (HE c c' r E).
  - destruct (holds_it st v) as (_ & _ & _ & _ & _ & _ & HE). exact (HE c c' r E).
  - destruct (holds_es st) as (_ & _ & _ & _ & _ & _ & HE). exact (HE c c' r E).
  - destruct (holds_et st) as (_ & _ & _ & _ & _ & _ & HE). exact (HE c c' r E).
Qed.
Definition s_tree_f (tops : tree_ops) (attach : bool) := if attach then t_attach tops else t_detach tops.
Lemma s_tree_do_is tops at_ tr st x st' : s_tree_do tops at_ tr st x = Val st' ->
  exists c r, s_tree_f tops at_ (s_key tr st) (s_col tr st) (s_root tr st) x = Val (c, r) /\ st' = s_put tr st c r.
Proof.
  intros E. destruct tr as [v|v| |], at_; cbn [s_tree_do s_tree_f s_key s_col s_root s_put] in *;
    unfold s_attach_is, s_attach_it, s_attach_es, s_attach_et, s_detach_is, s_detach_it, s_detach_es, s_detach_et, rd in E.
  all: repeat (match type of E with context [if ?b then _ else _] => destruct b; cbn [obind] in E; try discriminate end).
  all: repeat (match type of E with obind ?m _ = _ => destruct m as [?| | |] eqn:?; cbn [obind] in E; try discriminate end).
  all: match type of E with context [let (_, _) := ?p in _] => destruct p as [c r] end; injection E as <-; eauto.
Qed.

Section SR.
  Variable cf : cfg.

  Lemma s_realised (at_ : bool) tr st a sP tP x st' sP' tP' : smem cf st a sP tP -> smem cf st' a sP' tP' -> real_tree tr -> a_map a x <> None ->
    let pl := if s_counts tr then tP else sP in let pl' := if s_counts tr then tP' else sP' in
    (if at_ then pl x = Out /\ pl' x <> Out else pl x = s_place tr /\ pl' x = Out /\ detachable a x) ->
    s_tree_do ref_tree_ops at_ tr st x = Val st' -> exists q, s_op tr q x st st'.
  Proof.
    intros R R' RT MX pl pl' PL E. apply s_tree_do_is in E as (c' & r & E & ->).
    assert (TI : tree_inv (s_key tr st) (s_col tr st) (s_root tr st) (fun y => pl y = s_place tr)).
    { subst pl. destruct tr as [v|v| |]; cbn [s_key s_col s_root s_place s_counts real_tree] in *.
      - exact (fo_int _ _ _ _ _ _ (sm_src _ _ _ _ _ R) v RT).
      - exact (fo_int _ _ _ _ _ _ (sm_tgt _ _ _ _ _ R) v RT).
      - exact (fo_ext _ _ _ _ _ _ (sm_src _ _ _ _ _ R)).
      - exact (fo_ext _ _ _ _ _ _ (sm_tgt _ _ _ _ _ R)). }
    pose proof (sm_len _ _ _ _ _ R) as HL. pose proof (sm_dlen _ _ _ _ _ R) as HD.
    assert (RG : forall y, a_map a y <> None -> y <> 0 /\ y < s_ilen st) by (intros y Y; apply (sm_dom _ _ _ _ _ R) in Y; lia).
    assert (BD : forall y, pl y = s_place tr -> y < s_ilen st).
    { intros y Y. apply RG. subst pl. pose proof (sm_sp _ _ _ _ _ R y) as O1. pose proof (sm_tp _ _ _ _ _ R y) as O2.
      destruct tr as [v|v| |]; cbn [s_place s_counts] in Y; [rewrite Y in O1|rewrite Y in O2|rewrite Y in O1|rewrite Y in O2].
      - destruct O1 as ((t & M) & _). congruence.
      - destruct O2 as ((t & M) & _). congruence.
      - destruct O1 as (s & t & M & _). congruence.
      - destruct O2 as (s & t & M & _). congruence. }
    destruct (RG x MX) as [X0 XL].
    assert (Q : exists q c2, s_bare tr st q = Val (tt, c2, r) /\ (forall i, c2 i = c' i) /\
      always (s_dlen st) (s_ilen st) (s_key tr st) (keeps x (s_col tr st)) q (s_col tr st) (s_root tr st)).
    { destruct at_.
      - destruct (realise_attach _ _ _ _ x (s_dlen st) (s_ilen st) HD TI BD X0 XL) as (q & c2 & c'' & r' & E1 & E2 & F & AL).
        + destruct PL as [PL _]. rewrite PL. destruct tr; discriminate.
        + destruct PL as [PL _]. subst pl. destruct tr; cbn [s_counts s_col] in *;
            [exact (fo_out _ _ _ _ _ _ (sm_src _ _ _ _ _ R) x X0 PL)|exact (fo_out _ _ _ _ _ _ (sm_tgt _ _ _ _ _ R) x X0 PL)|
             exact (fo_out _ _ _ _ _ _ (sm_src _ _ _ _ _ R) x X0 PL)|exact (fo_out _ _ _ _ _ _ (sm_tgt _ _ _ _ _ R) x X0 PL)].
        + cbn [s_tree_f] in E. rewrite E in E2. injection E2 as <- <-. exists q, c2. rewrite s_bare_is. auto.
      - destruct PL as (PL & _ & DX).
        destruct (realise_detach _ _ _ _ x (s_dlen st) (s_ilen st) HD TI BD PL) as (q & c2 & c'' & r' & E1 & E2 & F & AL).
        + intros j J K. subst pl. destruct tr as [v|v| |]; cbn [s_counts s_place s_key] in *.
          * exact (is_distinct cf _ _ _ _ v x R DX PL j J K).
          * exact (it_distinct cf _ _ _ _ v x R DX PL j J K).
          * exact (es_distinct cf _ _ _ _ x R DX PL j J K).
          * exact (et_distinct cf _ _ _ _ x R DX PL j J K).
        + cbn [s_tree_f] in E. rewrite E in E2. injection E2 as <- <-. exists q, c2. rewrite s_bare_is. auto. }
    destruct Q as (q & c2 & EB & F & AL). exists q. split; [exact RT|]. split; [eauto|]. split.
    - pose proof (s_agree tr st unit q) as AG. rewrite EB in AG. cbn [agree] in AG. destruct AG as (m & EM & SM).
      exists m. split; [exact EM|]. eapply same_trans; [exact SM|]. now apply s_put_ext.
    - intros SC. split.
      + intros n c0 r0 E0. rewrite s_bare_is in E0. exact (AL n c0 r0 E0).
      + assert (CO : forall z, s_col tr z = s_it z) by (destruct tr; (discriminate || reflexivity)). rewrite !CO. subst pl pl'. rewrite SC in PL.
        destruct at_.
        * destruct PL as [P1 P2]. rewrite (fo_out _ _ _ _ _ _ (sm_tgt _ _ _ _ _ R) x X0 P1). split; [intros _|reflexivity].
          exact (forest_size _ _ _ _ _ _ _ (sm_tgt _ _ _ _ _ R') P2).
        * destruct PL as (P1 & P2 & _). rewrite (fo_out _ _ _ _ _ _ (sm_tgt _ _ _ _ _ R') x X0 P2). split; [|intros K; destruct (K eq_refl)].
          intros K. exfalso. assert (P3 : tP x <> Out) by (rewrite P1; destruct tr; discriminate).
          exact (forest_size _ _ _ _ _ _ _ (sm_tgt _ _ _ _ _ R) P3 K).
  Qed.
End SR.

(** ** Updates of the split store *)
(** The end of the link the tree operation after point [k] is about; 0: there is none. *)
Definition s_end (k : nat) (os ot s t : N) : N :=
  match k with 0%nat => os | 1%nat => ot | 4%nat => s | 5%nat => t | _ => 0 end.

Section SU.
  Variables (cf : cfg) (lops : list_ops).
  Hypothesis ENV : unit_env cf ref_tree_ops lops.
  Let CF : cfg_ok cf := proj1 ENV.
  Let TOK : tree_ops_ok ref_tree_ops := proj1 (proj2 ENV).
  Notation tops := ref_tree_ops.

  Lemma s_update_op st a i os ot s t k : sinv cf st a -> a_map a i = Some (os, ot) -> split_update_ok a i s t -> s_end k os ot s t <> 0 ->
    exists tr q st1 st2, s_stop tops st i os ot s t k = Val st1 /\ s_stop tops st i os ot s t (S k) = Val st2 /\ s_op tr q i st1 st2.
  Proof.
    intros (R & W & VI) EM (DET & TS & SELF0) NZ. pose proof (all_placed_tpl _ VI) as V.
    assert (PS : spl a i = place_of a os) by (unfold spl; now rewrite EM).
    assert (PT : tpl a i = place_of a ot) by (unfold tpl; now rewrite EM).
    assert (SELF : s = i \/ t = i -> os = 0) by (intros K; destruct (SELF0 K) as (ot' & K'); congruence).
    destruct (sm_range _ _ _ _ _ _ _ R EM) as [IR IF]. assert (I0 : i <> 0) by lia. assert (MN : a_map a i <> None) by congruence.
    pose proof (fun k => s_stop_ok cf tops lops ENV st a (spl a) (tpl a) i os ot s t k R V EM DET PS PT SELF) as OKK.
    set (a' := a_update a i s t) in *. assert (EM' : a_map a' i = Some (s, t)) by (cbn; apply upd_same).
    destruct (OKK k) as (st1 & E1 & R1). destruct (OKK (S k)) as (st2 & E2 & R2).
    cut (exists tr q, s_op tr q i st1 st2). { intros (tr & q & O). exists tr, q, st1, st2. auto. }
    assert (REAL : forall (at_ : bool) tr b sP tP sP' tP', smem cf st1 b sP tP -> smem cf st2 b sP' tP' -> real_tree tr -> a_map b i <> None ->
      (if at_ then (if s_counts tr then tP else sP) i = Out /\ (if s_counts tr then tP' else sP') i <> Out
       else (if s_counts tr then tP else sP) i = s_place tr /\ (if s_counts tr then tP' else sP') i = Out /\ detachable b i) ->
      s_tree_do tops at_ tr st1 i = Val st2 -> exists tr q, s_op tr q i st1 st2).
    { intros at_ tr b sP tP sP' tP' A1 A2 A3 A4 A5 A6. exists tr. exact (s_realised cf at_ tr st1 b sP tP i st2 sP' tP' A1 A2 A3 A4 A5 A6). }
    destruct k as [|[|[|[|[|[|k]]]]]]; cbn [s_end] in NZ; try (destruct (NZ eq_refl); fail).
    - (* detach from the sources *)
      cbn [s_stop] in E1. injection E1 as <-. unfold s_stop in E2.
      destruct (d_source tops st i os) as [z| | |] eqn:ED; cbn [obind] in E2; try discriminate. injection E2 as ->.
      unfold d_source, s_when in ED. destruct (N.eqb_spec os 0); [tauto|]. cbn [negb] in ED.
      rewrite (s_is_virtual_ok _ _ _ _ _ _ R V) in ED. cbn [obind] in ED. unfold isvirt in ED.
      unfold place_of in PS. destruct (N.eqb_spec os 0); [tauto|]. destruct (a_map a os).
      + apply (REAL false (SourcesOf os) a _ _ _ _ R1 R2); auto. cbn. rewrite upd_same. auto.
      + apply (REAL false OuterSources a _ _ _ _ R1 R2); auto; cbn; [exact I|]. rewrite upd_same. auto.
    - (* from the targets *)
      unfold s_stop in E1, E2. destruct (d_source tops st i os) as [z| | |]; cbn [obind] in E1, E2; try discriminate. injection E1 as ->.
      destruct (d_target tops st1 i ot) as [z| | |] eqn:ED; cbn [obind] in E2; try discriminate. injection E2 as ->.
      unfold d_target, s_when in ED. destruct (N.eqb_spec ot 0); [tauto|]. cbn [negb] in ED.
      rewrite (s_is_virtual_ok _ _ _ _ _ _ R1 V) in ED. cbn [obind] in ED. unfold isvirt in ED.
      unfold place_of in PT. destruct (N.eqb_spec ot 0); [tauto|]. destruct (a_map a ot).
      + apply (REAL false (TargetsOf ot) a _ _ _ _ R1 R2); auto. cbn. rewrite upd_same. auto.
      + apply (REAL false OuterTargets a _ _ _ _ R1 R2); auto; cbn; [exact I|]. rewrite upd_same. auto.
    - (* attach to the sources *)
      unfold s_stop in E1, E2. destruct (d_source tops st i os) as [z1| | |] eqn:D1; cbn [obind] in E1, E2; try discriminate.
      destruct (d_target tops z1 i ot) as [z2| | |] eqn:D2; cbn [obind] in E1, E2; try discriminate.
      destruct (OKK 2%nat) as (z2' & F2 & RZ). unfold s_stop in F2. rewrite D1 in F2. cbn [obind] in F2. rewrite D2 in F2. cbn [obind] in F2. injection F2 as <-.
      assert (VIRT : forall v, v = s \/ v = t -> s_is_virtual z2 v = Val (isvirt a v)).
      { intros v HV. unfold s_is_virtual, isvirt. destruct (N.eqb_spec v 0) as [->|V0]; [eapply s_is_unused_0; eauto|].
        eapply s_is_unused_ok; eauto. intros s' t' E. destruct (N.eq_dec v i) as [->|NE].
        - left. assert (os = 0) by (apply SELF; destruct HV; auto). congruence.
        - rewrite upd_other by auto. eapply V; eauto. }
      rewrite (VIRT s), (VIRT t) in E1 by auto. rewrite (VIRT s), (VIRT t) in E2 by auto. cbn [obind] in E1, E2.
      rewrite (s_get_data_ok _ _ _ _ _ _ RZ) in E1 by lia. rewrite (s_get_data_ok _ _ _ _ _ _ RZ) in E2 by lia. cbn [obind] in E1, E2.
      injection E1 as E1. rewrite E1 in E2.
      destruct (t_source tops (isvirt a s) st1 i s) as [z3| | |] eqn:T1; cbn [obind] in E2; try discriminate. injection E2 as ->.
      unfold t_source, s_when in T1. destruct (N.eqb_spec s 0); [tauto|]. cbn [negb] in T1. unfold isvirt in T1.
      unfold place_of in R2. destruct (N.eqb_spec s 0); [tauto|]. destruct (a_map a s) eqn:ES.
      + apply (REAL true (SourcesOf s) a' _ _ _ _ R1 R2); [cbn; auto|congruence| |exact T1]. cbn. rewrite !upd_same. split; [auto|discriminate].
      + apply (REAL true OuterSources a' _ _ _ _ R1 R2); [cbn; auto|congruence| |exact T1]. cbn. rewrite !upd_same. split; [auto|discriminate].
    - (* attach to the targets *)
      unfold s_stop in E1, E2. destruct (d_source tops st i os) as [z1| | |] eqn:D1; cbn [obind] in E1, E2; try discriminate.
      destruct (d_target tops z1 i ot) as [z2| | |] eqn:D2; cbn [obind] in E1, E2; try discriminate.
      destruct (OKK 2%nat) as (z2' & F2 & RZ). unfold s_stop in F2. rewrite D1 in F2. cbn [obind] in F2. rewrite D2 in F2. cbn [obind] in F2. injection F2 as <-.
      assert (VIRT : forall v, v = s \/ v = t -> s_is_virtual z2 v = Val (isvirt a v)).
      { intros v HV. unfold s_is_virtual, isvirt. destruct (N.eqb_spec v 0) as [->|V0]; [eapply s_is_unused_0; eauto|].
        eapply s_is_unused_ok; eauto. intros s' t' E. destruct (N.eq_dec v i) as [->|NE].
        - left. assert (os = 0) by (apply SELF; destruct HV; auto). congruence.
        - rewrite upd_other by auto. eapply V; eauto. }
      rewrite (VIRT s), (VIRT t) in E1 by auto. rewrite (VIRT s), (VIRT t) in E2 by auto. cbn [obind] in E1, E2.
      rewrite (s_get_data_ok _ _ _ _ _ _ RZ) in E1 by lia. rewrite (s_get_data_ok _ _ _ _ _ _ RZ) in E2 by lia. cbn [obind] in E1, E2.
      destruct (t_source tops (isvirt a s) _ i s) as [z3| | |]; cbn [obind] in E1, E2; try discriminate. injection E1 as ->.
      unfold t_target, s_when in E2. destruct (N.eqb_spec t 0); [tauto|]. cbn [negb] in E2. unfold isvirt in E2.
      unfold place_of in R2 at 2. destruct (N.eqb_spec t 0); [tauto|]. destruct (a_map a t) eqn:ES.
      + apply (REAL true (TargetsOf t) a' _ _ _ _ R1 R2); [cbn; auto|congruence| |exact E2]. cbn. rewrite !upd_same. split; [auto|discriminate].
      + apply (REAL true OuterTargets a' _ _ _ _ R1 R2); [cbn; auto|congruence| |exact E2]. cbn. rewrite !upd_same. split; [auto|discriminate].
  Qed.
End SU.

(** Updates of the split store: wherever inside one of its tree operations the process stops, the
    other links are as before, and link [i] is there with the fields it has at that moment, or it is
    lost, and then count counts it and each does not visit it. *)
Lemma L_C78_split_update cf tops lops st d i os ot s t k tr q n st1 st2 sn orc st3 :
  let SL := split_links cf tops lops in let p := s_fields k os ot s t in
  unit_env cf tops lops -> s_hist cf tops lops st d -> is_link SL st i os ot -> s_oku SL st i s t -> last_fits cf tops lops st ->
  s_end k os ot s t <> 0 -> s_stop tops st i os ot s t k = Val st1 -> s_stop tops st i os ot s t (S k) = Val st2 ->
  s_op tr q i st1 st2 -> s_in_op tr q n st1 sn -> s_open cf (s_persist sn orc) = Val (Ok st3) ->
  frame SL st st3 i /\ exists c, s_count cf st [] = Val c /\ s_count cf st3 [] = Val c /\
  (is_link SL st3 i (fst p) (snd p) /\ s_each cf (fun m _ => (m + 1, Continue)) [] st3 0 = Val (c, Continue) \/
   no_link SL st3 i /\ exists m, c = m + 1 /\ s_each cf (fun m _ => (m + 1, Continue)) [] st3 0 = Val (m, Continue)).
Proof.
  intros SL p ENV HH L OU FT NZ E1 E2 OP IN EO. pose proof (proj1 ENV) as CF.
  assert (Q : forall k' st' st4, s_stop tops st i os ot s t k' = Val st' -> s_fields k' os ot s t = p -> s_open cf (s_persist st' orc) = Val (Ok st4) ->
    frame SL st st4 i /\ exists c, s_count cf st [] = Val c /\ s_count cf st4 [] = Val c /\
    (is_link SL st4 i (fst p) (snd p) /\ s_each cf (fun m _ => (m + 1, Continue)) [] st4 0 = Val (c, Continue) \/
     no_link SL st4 i /\ exists m, c = m + 1 /\ s_each cf (fun m _ => (m + 1, Continue)) [] st4 0 = Val (m, Continue))).
  { intros k' st' st4 ES EF E4. assert (DD : s_detached k' os s \/ ~ s_detached k' os s).
    { unfold s_detached. destruct k' as [|[|[|[|[|[|?]]]]]]; try tauto; [destruct (N.eq_dec os 0)|destruct (N.eq_dec s 0)|destruct (N.eq_dec s 0)|destruct (N.eq_dec s 0)]; tauto. }
    destruct DD as [DD|DD].
    - destruct (L_C69_link_lost cf tops lops st d i os ot s t k' st' orc st4 ENV HH L OU FT ES E4 DD) as (F & NL & m & C1 & C2 & C3).
      split; [exact F|]. exists (m + 1). split; [exact C1|]. split; [exact C2|]. right. split; [exact NL|]. eauto.
    - destruct (L_C69_interrupted_update_partial cf tops lops st d i os ot s t k' st' orc st4 ENV HH L OU FT ES E4 DD) as (F & IL & m & C1 & C2 & C3).
      rewrite EF in IL. split; [exact F|]. exists m. auto 6. }
  assert (FK : s_fields (S k) os ot s t = p).
  { subst p. destruct k as [|[|[|[|[|[|?]]]]]]; cbn [s_end] in NZ; try tauto; reflexivity. }
  assert (X : forall z, s_alike cf (s_again cf sn orc) z -> exists st4, z = Val (Ok st4) /\ (forall i, s_get_link cf st3 i = s_get_link cf st4 i) /\
    s_count cf st3 [] = s_count cf st4 [] /\ forall H (h : rhandler H) y, s_each cf h [] st3 y = s_each cf h [] st4 y).
  { intros z. unfold s_again. rewrite EO. cbn [s_alike]. destruct z as [[z|]| | |]; try tauto. intros AL. exists z. auto. }
  assert (Y : forall k' st' st4, s_stop tops st i os ot s t k' = Val st' -> s_fields k' os ot s t = p -> s_again cf st' orc = Val (Ok st4) ->
    (forall i, s_get_link cf st3 i = s_get_link cf st4 i) -> s_count cf st3 [] = s_count cf st4 [] -> (forall H (h : rhandler H) y, s_each cf h [] st3 y = s_each cf h [] st4 y) ->
    frame SL st st3 i /\ exists c, s_count cf st [] = Val c /\ s_count cf st3 [] = Val c /\
    (is_link SL st3 i (fst p) (snd p) /\ s_each cf (fun m _ => (m + 1, Continue)) [] st3 0 = Val (c, Continue) \/
     no_link SL st3 i /\ exists m, c = m + 1 /\ s_each cf (fun m _ => (m + 1, Continue)) [] st3 0 = Val (m, Continue))).
  { intros k' st' st4 ES EF E4 G C EA. destruct (Q k' st' st4 ES EF E4) as (F & c & C1 & C2 & C3).
    unfold frame, is_link, no_link in *. subst SL. cbn [li_get split_links] in *. rewrite EA, C, G.
    split; [intros j J; rewrite G; auto|]. exists c. auto. }
  destruct (L_C78_split cf tr q i st1 st2 n sn orc CF OP IN) as [A|A]; apply X in A as (st4 & E4 & G & C & EA).
  - exact (Y k st1 st4 E1 eq_refl E4 G C EA).
  - exact (Y (S k) st2 st4 E2 FK E4 G C EA).
Qed.
(** With the reference operations there is such a program at every point of every update. *)
Lemma L_C78_split_update_realised cf lops st d i os ot s t k :
  let SL := split_links cf ref_tree_ops lops in
  unit_env cf ref_tree_ops lops -> s_hist cf ref_tree_ops lops st d -> is_link SL st i os ot -> s_oku SL st i s t -> s_end k os ot s t <> 0 ->
  exists tr q st1 st2, s_stop ref_tree_ops st i os ot s t k = Val st1 /\ s_stop ref_tree_ops st i os ot s t (S k) = Val st2 /\ s_op tr q i st1 st2.
Proof.
  intros SL ENV HH L OU NZ. destruct (s_hist_inv cf ref_tree_ops lops ENV st d HH) as (a & K & D).
  pose proof (f_ok _ _ _ ENV) as OK. apply (ob_link cf _ _ _ OK _ _ _ _ _ K) in L. assert (MN : a_map a i <> None) by congruence.
  apply (ob_oku cf ref_tree_ops lops ENV _ _ _ _ _ K MN) in OU.
  exact (s_update_op cf lops ENV st a i os ot s t k (proj1 K) L OU NZ).
Qed.
(** Updates of the unit store: the same. *)
Lemma L_C78_unit_update_realised cf lops st d i os ot s t w st1 :
  let U := unit_links cf ref_tree_ops lops in
  unit_env cf ref_tree_ops lops -> u_hist cf ref_tree_ops lops st d -> is_link U st i os ot -> separable U st i ->
  CrashClaims.at_point ref_tree_ops st i os ot s t (before w) st1 -> end_of w os ot s t <> 0 ->
  exists q st2, tree_op ref_tree_ops w i st1 = Val st2 /\ u_op (if on_sources w then Sources else Targets) q i st1 st2.
Proof.
  intros U ENV HH L S AP NZ.
  destruct (L_C77_realised cf lops st d i os ot s t w st1 ENV HH L S AP NZ) as (q & st2 & m & EN & SP & EM & ET & SM).
  exists q, st2. split; [exact ET|].
  destruct (u_hist_inv cf ref_tree_ops lops ENV st d HH) as (a & K & D). pose proof (e_ok _ _ _ ENV) as OK. pose proof (proj1 (proj2 ENV)) as TOK.
  apply (ob_link cf _ U _ OK _ _ _ _ _ K) in L. apply (ob_sep cf _ U _ OK _ _ _ K) in S.
  destruct (point_half cf lops ENV st a i os ot s t w st1 K L S AP) as [LN H].
  destruct K as [R W]. assert (DOM : 1 <= i <= a_top a /\ ~ In i (a_free a)) by (apply (ur_dom _ _ _ R); congruence).
  pose proof (ur_len _ _ _ R) as HL. assert (I0 : i <> 0) by lia.
  assert (HD : u_header st1 = Val tt) by (unfold u_header; destruct (N.ltb_spec 0 (u_len st1)); [auto|lia]).
  destruct w; cbn [on_sources end_of tree_op] in *; unfold u_op; cbn [u_bare u_run u_counts u_col].
  - split; [exact EN|]. split; [exists m; auto|]. intros _. split; [exact (SP eq_refl)|]. destruct H as [SH DD].
    assert (PI : psrc a i) by (exists os, ot; auto).
    destruct (src_detach ref_tree_ops TOK st1 (psrc a) i true HD SH I0) as (c & E & [_ SZ] & _); [tauto| |].
    { intros _ j (js & jt & J1 & J2) Q. rewrite DD in Q. rewrite (key_src_data _ _ _ _ _ _ R J1), (key_src_data _ _ _ _ _ _ R L) in Q.
      destruct S as [S|S]; [congruence|]. inversion Q; subst. eapply S; eauto. }
    unfold when in E. rewrite ET in E. injection E as ->. cbn [u_src set_src] in SZ |- *. rewrite (SZ i I0) by tauto.
    split; [|intros Q; destruct (Q eq_refl)]. intros Q. destruct (tree_inv_size _ _ _ _ i (proj1 SH) PI Q).
  - split; [exact EN|]. split; [exists m; auto|]. discriminate.
  - split; [exact EN|]. split; [exists m; auto|]. intros _. split; [exact (SP eq_refl)|]. rename H into SH.
    destruct (src_attach ref_tree_ops TOK st1 _ i true HD SH I0) as (c & E & [TI _] & _); [tauto|].
    unfold when in E. rewrite ET in E. injection E as ->. rewrite (proj2 SH i I0) by tauto. split; [intros _|reflexivity].
    apply (tree_inv_size _ _ _ _ i TI). auto.
  - split; [exact EN|]. split; [exists m; auto|]. discriminate.
Qed.

(** ** The hypotheses are met *)
Lemma in_op_exists tr q i st st' n : s_op tr q i st st' -> exists sn, s_in_op tr q n st sn.
Proof.
  intros (_ & [r EN] & _). rewrite s_bare_is in EN. destruct (cut_val _ _ _ _ _ n _ _ _ EN) as (c & r' & E). rewrite <- s_bare_is in E.
  pose proof (s_agree tr st unit (cut n q)) as AG. rewrite E in AG. cbn [agree] in AG. destruct AG as (m & EM & SM).
  exists (s_put tr st c r'), m. auto.
Qed.
Lemma L_C78_nonvacuous n :
  (forall k, In k [0; 1; 4; 5]%nat -> exists st d tr q st1 st2 sn st3, s_hist ex_cf ref_tree_ops ref_list_ops st d /\
     is_link ex_S st 2 1 2 /\ s_oku ex_S st 2 3 1 /\ last_fits ex_cf ref_tree_ops ref_list_ops st /\ s_end k 1 2 3 1 <> 0 /\
     s_stop ref_tree_ops st 2 1 2 3 1 k = Val st1 /\ s_stop ref_tree_ops st 2 1 2 3 1 (S k) = Val st2 /\ s_op tr q 2 st1 st2 /\
     s_in_op tr q n st1 sn /\ s_open ex_cf (s_persist sn all_grown) = Val (Ok st3)) /\
  (forall w, exists st d q st1 st2 sn, u_hist ex_cf ref_tree_ops ref_list_ops st d /\ is_link ex_U st 2 1 2 /\ separable ex_U st 2 /\
     CrashClaims.at_point ref_tree_ops st 2 1 2 2 2 (before w) st1 /\ u_op (if on_sources w then Sources else Targets) q 2 st1 st2 /\
     u_in_op (if on_sources w then Sources else Targets) q n st1 sn).
Proof.
  split.
  - intros k IK. destruct L_C69_nonvacuous as (st & d & HH & _ & L2 & _ & OU & AF & LF & TM & _ & _ & _ & _ & _ & _ & PE).
    assert (NZ : s_end k 1 2 3 1 <> 0) by (repeat (destruct IK as [<-|IK]; [discriminate|]); destruct IK).
    destruct (L_C78_split_update_realised ex_cf ref_list_ops st d 2 1 2 3 1 k ex_env HH L2 OU NZ) as (tr & q & st1 & st2 & E1 & E2 & OP).
    destruct (in_op_exists tr q 2 st1 st2 n OP) as [sn IN].
    assert (K7 : (k < 7)%nat /\ (S k < 7)%nat) by (repeat (destruct IK as [<-|IK]; [lia|]); destruct IK).
    destruct (PE k (proj1 K7)) as (z1 & z2 & Z1 & Z2). destruct (PE (S k) (proj2 K7)) as (y1 & y2 & Y1 & Y2).
    rewrite E1 in Z1. injection Z1 as <-. rewrite E2 in Y1. injection Y1 as <-.
    destruct (L_C78_split ex_cf tr q 2 st1 st2 n sn all_grown (proj1 ex_env) OP IN) as [A|A]; unfold s_again in A; [rewrite Z2 in A|rewrite Y2 in A];
      destruct (s_open ex_cf (s_persist sn all_grown)) as [[st3|]| | |] eqn:E3; try contradiction; exists st, d, tr, q, st1, st2, sn, st3; auto 12.
  - intros w. destruct ex3_reach as (d0 & _ & DP & _ & L2 & L3).
    destruct (ex_reach ex3) as (d & HH & K); [vm_compute; reflexivity..|]. pose proof (e_ok _ _ _ ex_env) as OK.
    assert (SE : separable ex_U (ex_st ex3) 2) by (apply distinct_separable; exact DP).
    destruct (CrashClaims.point_exists ex_cf ref_tree_ops ref_list_ops ex_env _ _ 2 1 2 2 2 (before w) K) as [st1 AP].
    { now apply (ob_link ex_cf _ _ _ OK _ _ _ _ _ K). }
    { apply (ob_sep ex_cf _ _ _ OK _ _ _ K). exact SE. }
    destruct (L_C78_unit_update_realised ex_cf ref_list_ops _ d 2 1 2 2 2 w st1 ex_env HH L2 SE AP) as (q & st2 & _ & OP); [destruct w; discriminate|].
    assert (IN : exists sn, u_in_op (if on_sources w then Sources else Targets) q n st1 sn).
    { destruct OP as ([r EN] & _). destruct (L_C75_unit st1 unit (cut n q)) as [S1 S2]. destruct w; cbn [on_sources u_bare] in *;
      destruct (cut_val _ _ _ _ _ n _ _ _ EN) as (c & r' & E); [rewrite E in S1|rewrite E in S2|rewrite E in S1|rewrite E in S2];
      [destruct S1 as (m & EM & SM)|destruct S2 as (m & EM & SM)|destruct S1 as (m & EM & SM)|destruct S2 as (m & EM & SM)]; eexists; exists m; eauto. }
    destruct IN as [sn IN]. exists (ex_st ex3), d, q, st1, st2, sn. auto 7.
Qed.
