(** Builds without overflow checks (C101; proofs, the statements are repeated in PropWrap.v). *)
From Coq Require Import NArith PeanoNat List Bool Lia Permutation.
From Verif Require Import Base Trees Lists TreeInv Spec Iface UnitModel UnitInv UnitOps UnitLinks LinkModel SplitModel Forest
  SplitInv SplitReads SplitOps SplitWrites SplitLinks Doublets DoubletsOK Obs Hist Claims TreeImpl UnitHist SplitHist UnitClaims SplitClaims
  DefaultClaims SplitDefaults Overflow AfterCrash CrashDefaults WrapModel.
Import ListNotations.
Open Scope N_scope.

(** What the first gives, the second gives too. *)
Definition below {A} (x y : out A) : Prop := forall v, x = Val v -> y = Val v.

Lemma below_refl A (x : out A) : below x x.
Proof. intros v E. exact E. Qed.
Lemma below_bind A B (x y : out A) (f g : A -> out B) :
  below x y -> (forall v, below (f v) (g v)) -> below (obind x f) (obind y g).
Proof.
  intros XY FG v. destruct x as [a| | |]; cbn [obind]; try discriminate. rewrite (XY a eq_refl). apply FG.
Qed.
Lemma below_add tmax a b : below (cadd tmax a b) (wadd tmax a b).
Proof.
  intros v. unfold cadd, wadd. destruct (N.leb_spec (a + b) tmax); [|discriminate]. intros E. injection E as <-.
  now rewrite N.mod_small by lia.
Qed.
Lemma below_sub tmax a b : below (csub a b) (wsub tmax a b).
Proof. intros v. unfold csub, wsub. destruct (b <=? a); [auto|discriminate]. Qed.

Ltac bl :=
  repeat first
    [ apply below_refl | assumption | apply below_add | apply below_sub
    | match goal with H : forall _, below _ _ |- _ => apply H end
    | match goal with H : forall _ _, below _ _ |- _ => apply H end
    | apply below_bind; [|intros ?]
    | match goal with |- below (match ?x with _ => _ end) _ => destruct x end
    | match goal with |- below (if ?x then _ else _) _ => destruct x end ].

Lemma b_right fuel tmax len c base link : forall root acc,
  below (cu_right fuel tmax len c base link root acc) (wcu_right fuel tmax len c base link root acc).
Proof. induction fuel as [|f IH]; intros root acc; cbn [cu_right wcu_right]; bl. Qed.
Lemma b_left fuel tmax len c base link : forall root acc,
  below (cu_left fuel tmax len c base link root acc) (wcu_left fuel tmax len c base link root acc).
Proof. induction fuel as [|f IH]; intros root acc; cbn [cu_left wcu_left]; bl. Qed.
Lemma b_tree fuel tmax len c base root link :
  below (count_usages_tree fuel tmax len c base root link) (wcount_usages_tree fuel tmax len c base root link).
Proof.
  unfold count_usages_tree, wcount_usages_tree. pose proof (b_right fuel tmax len c base link). pose proof (b_left fuel tmax len c base link). bl.
Qed.

Section Unit.
  Variables (cf : cfg) (tops : tree_ops) (lops : list_ops).
  Lemma b_u_total st : below (u_get_total st) (wu_get_total cf st).
  Proof. unfold u_get_total, wu_get_total. bl. Qed.
  Lemma b_u_src st v : below (u_src_count cf st v) (wu_src_count cf st v).
  Proof. unfold u_src_count, wu_src_count. apply below_bind; [bl|intros ?; apply b_tree]. Qed.
  Lemma b_u_tgt st v : below (u_tgt_count cf st v) (wu_tgt_count cf st v).
  Proof. unfold u_tgt_count, wu_tgt_count. apply below_bind; [bl|intros ?; apply b_tree]. Qed.
  Lemma b_u_count st q : below (u_count cf st q) (wu_count cf st q).
  Proof.
    unfold u_count, wu_count. pose proof (b_u_total st). pose proof (b_u_src st). pose proof (b_u_tgt st). bl.
  Qed.
  Lemma b_u_grow st : below (u_grow cf st) (wu_grow cf st).
  Proof. unfold u_grow, wu_grow. bl. Qed.
  Lemma b_u_create H (h : whandler H) q st x : below (u_create cf lops h q st x) (wu_create cf lops h q st x).
  Proof. unfold u_create, wu_create. pose proof b_u_grow. bl. Qed.
  Lemma b_u_trim fuel : forall st, below (u_trim lops fuel st) (wu_trim cf lops fuel st).
  Proof. induction fuel as [|f IH]; intros st; cbn [u_trim wu_trim]; bl. Qed.
  Lemma b_u_delete H (h : whandler H) q st x : below (u_delete cf tops lops h q st x) (wu_delete cf tops lops h q st x).
  Proof. unfold u_delete, wu_delete. pose proof b_u_trim. bl. Qed.
End Unit.

Section Split.
  Variables (cf : cfg) (tops : tree_ops) (lops : list_ops).
  Lemma b_s_total st : below (s_total st) (ws_total cf st).
  Proof. unfold s_total, ws_total. bl. Qed.
  Lemma b_s_es st v : below (s_es_count cf st v) (ws_es_count cf st v).
  Proof. unfold s_es_count, ws_es_count. do 2 (apply below_bind; [bl|intros ?]). apply b_tree. Qed.
  Lemma b_s_et st v : below (s_et_count cf st v) (ws_et_count cf st v).
  Proof. unfold s_et_count, ws_et_count. do 2 (apply below_bind; [bl|intros ?]). apply b_tree. Qed.
  Lemma b_s_count st q : below (s_count cf st q) (ws_count cf st q).
  Proof.
    unfold s_count, ws_count. pose proof (b_s_total st). pose proof (b_s_es st). pose proof (b_s_et st). bl.
  Qed.
  Lemma b_s_iter st q : below (s_each_iter cf st q) (ws_each_iter cf st q).
  Proof. unfold s_each_iter, ws_each_iter. pose proof b_s_count. bl. Qed.
  Lemma b_s_int st i : below (s_resolve_internal cf tops st i) (ws_resolve_internal cf tops st i).
  Proof. unfold s_resolve_internal, ws_resolve_internal. pose proof b_s_iter. bl. Qed.
  Lemma b_s_ext st i : below (s_resolve_external cf tops st i) (ws_resolve_external cf tops st i).
  Proof. unfold s_resolve_external, ws_resolve_external. pose proof b_s_iter. bl. Qed.
  Lemma b_s_grow st : below (s_grow cf st) (ws_grow cf st).
  Proof. unfold s_grow, ws_grow. bl. Qed.
  Lemma b_s_create H (h : whandler H) q st x : below (s_create cf tops lops h q st x) (ws_create cf tops lops h q st x).
  Proof. unfold s_create, ws_create. pose proof b_s_grow. pose proof b_s_ext. bl. Qed.
  Lemma b_s_trim fuel : forall st, below (s_trim lops fuel st) (ws_trim cf lops fuel st).
  Proof. induction fuel as [|f IH]; intros st; cbn [s_trim ws_trim]; bl. Qed.
  Lemma b_s_delete H (h : whandler H) q st x : below (s_delete cf tops lops h q st x) (ws_delete cf tops lops h q st x).
  Proof. unfold s_delete, ws_delete. pose proof b_s_trim. pose proof b_s_int. bl. Qed.
End Split.

(** Every call of the first store that returns gives the same in the second. *)
Definition calls_below {S} (I J : LinksI S) : Prop :=
  (forall st q n, li_count I st q = Val n -> li_count J st q = Val n) /\
  (forall H (h : whandler H) q st x v, li_create I H h q st x = Val v -> li_create J H h q st x = Val v) /\
  (forall H (h : rhandler H) q st x v, li_each I H h q st x = Val v -> li_each J H h q st x = Val v) /\
  (forall H (h : whandler H) q ch st x v, li_update I H h q ch st x = Val v -> li_update J H h q ch st x = Val v) /\
  (forall H (h : whandler H) q st x v, li_delete I H h q st x = Val v -> li_delete J H h q st x = Val v) /\
  (forall st i o, li_get I st i = Val o -> li_get J st i = Val o).

Section Defaults.
  Variables (cf : cfg) (S : Type) (I J : LinksI S).
  Hypothesis IJ : calls_below I J.
  Lemma c_count st q : below (d_count_by I st q) (d_count_by J st q). Proof. intros v. apply IJ. Qed.
  Lemma c_create H (h : whandler H) q st x : below (li_create I H h q st x) (li_create J H h q st x). Proof. intros v. apply IJ. Qed.
  Lemma c_each H (h : rhandler H) q st x : below (li_each I H h q st x) (li_each J H h q st x). Proof. intros v. apply IJ. Qed.
  Lemma c_update H (h : whandler H) q ch st x : below (li_update I H h q ch st x) (li_update J H h q ch st x). Proof. intros v. apply IJ. Qed.
  Lemma c_delete H (h : whandler H) q st x : below (li_delete I H h q st x) (li_delete J H h q st x). Proof. intros v. apply IJ. Qed.
  Lemma c_get st i : below (li_get I st i) (li_get J st i). Proof. intros v. apply IJ. Qed.
  Ltac cl := repeat first
    [ apply c_count | apply c_create | apply c_each | apply c_update | apply c_delete | apply c_get
    | solve [eauto using below_refl]
    | progress bl ].

  Lemma c_create_with H B (h : uwrite H B) q st x : below (d_create_by_with I h q st x) (d_create_by_with J h q st x).
  Proof. unfold d_create_by_with. cl. Qed.
  Lemma c_each_by H B (h : uread H B) q st x : below (d_each_by I h q st x) (d_each_by J h q st x).
  Proof. unfold d_each_by. cl. Qed.
  Lemma c_update_with H B (h : uwrite H B) q ch st x : below (d_update_by_with I h q ch st x) (d_update_by_with J h q ch st x).
  Proof. unfold d_update_by_with. cl. Qed.
  Lemma c_delete_with H B (h : uwrite H B) q st x : below (d_delete_by_with I h q st x) (d_delete_by_with J h q st x).
  Proof. unfold d_delete_by_with. cl. Qed.
  Lemma c_try_get st i : below (d_try_get_link I st i) (d_try_get_link J st i).
  Proof. unfold d_try_get_link. cl. Qed.
  Ltac dl := repeat first
    [ apply c_count | apply c_create_with | apply c_each_by | apply c_update_with | apply c_delete_with | apply c_try_get
    | apply below_refl | apply below_add | apply below_sub
    | match goal with |- below (obind _ _) _ => apply below_bind; [|intros ?] end
    | match goal with |- below (match ?x with _ => _ end) _ => destruct x end ].
  Lemma c_d_create st : below (d_create I st) (d_create J st).
  Proof. unfold d_create, d_create_by. dl. Qed.
  Lemma c_d_update i s t st : below (d_update I i s t st) (d_update J i s t st).
  Proof. unfold d_update, d_update_by. dl. Qed.
  Lemma c_d_delete i st : below (d_delete I i st) (d_delete J i st).
  Proof. unfold d_delete, d_delete_by. dl. Qed.
  Lemma c_point st : below (d_create_point I st) (d_create_point J st).
  Proof. unfold d_create_point. pose proof c_d_create. pose proof c_d_update. apply below_bind; [auto|]. intros [st1 [new|e]]; [auto|bl]. Qed.
  Lemma c_link_with H B (h : uwrite H B) s t st x : below (d_create_link_with I h s t st x) (d_create_link_with J h s t st x).
  Proof. unfold d_create_link_with, d_create_with, d_update_with. dl. Qed.
  Lemma c_link s t st : below (d_create_link I s t st) (d_create_link J s t st).
  Proof. unfold d_create_link. apply below_bind; [apply c_link_with|]. intros [[? ?] ?]. bl. Qed.
  Lemma c_search st s t : below (d_search cf I st s t) (d_search cf J st s t).
  Proof. unfold d_search, d_find. dl. Qed.
  Lemma c_get_or_create s t st : below (d_get_or_create cf I s t st) (d_get_or_create cf J s t st).
  Proof. unfold d_get_or_create. apply below_bind; [apply c_search|]. intros [i|]; [bl|apply c_link]. Qed.
  Lemma c_delete_all fuel : forall st, below (d_delete_all I fuel st) (d_delete_all J fuel st).
  Proof.
    induction fuel as [|f IH]; intros st; cbn [d_delete_all]; [bl|]. apply below_bind; [apply c_count|]. intros c.
    destruct (c =? 0); [bl|]. apply below_bind; [apply c_d_delete|]. intros [st1 [u|e]]; [apply IH|bl].
  Qed.
  Lemma c_each_iter st q : below (d_each_iter I st q) (d_each_iter J st q).
  Proof. unfold d_each_iter. dl. Qed.
  Lemma c_delete_list H B (h : uwrite H B) l : forall st x, below (d_delete_list I h l st x) (d_delete_list J h l st x).
  Proof.
    induction l as [|i l IH]; intros st x; cbn [d_delete_list]; [bl|]. apply below_bind; [apply c_delete_with|].
    intros [[st1 x1] [u|e]]; [apply IH|bl].
  Qed.
  Lemma c_delete_query H B (h : uwrite H B) q st x : below (d_delete_query_with I h q st x) (d_delete_query_with J h q st x).
  Proof.
    unfold d_delete_query_with. apply below_bind; [apply c_count|]. intros _. apply below_bind; [apply c_each_by|]. intros [v o].
    apply below_bind; [apply c_delete_list|]. intros [[? [? ?]] ?]. bl.
  Qed.
  Lemma c_delete_usages H B (h : uwrite H B) i st x : below (d_delete_usages_with cf I h i st x) (d_delete_usages_with cf J h i st x).
  Proof.
    unfold d_delete_usages_with. do 2 (apply below_bind; [apply c_count|]; intros _). do 2 (apply below_bind; [apply c_each_by|]; intros [? ?]).
    apply below_bind; [apply c_delete_list|]. intros [[? [? ?]] ?]. bl.
  Qed.
  Lemma c_rebase_list H B (h : uwrite H B) old new l : forall st x, below (d_rebase_list I h old new l st x) (d_rebase_list J h old new l st x).
  Proof.
    induction l as [|u l IH]; intros st x; cbn [d_rebase_list]; [bl|].
    apply below_bind; [destruct (l_source u =? old); [apply c_update_with|bl]|]. intros [[st1 x1] [o|e]]; [|bl].
    apply below_bind; [destruct (l_target u =? old); [apply c_update_with|bl]|]. intros [[st2 x2] [o2|e]]; [apply IH|bl].
  Qed.
  Lemma c_rebase_with H B (h : uwrite H B) old new st x : below (d_rebase_with cf I h old new st x) (d_rebase_with cf J h old new st x).
  Proof.
    unfold d_rebase_with. apply below_bind; [apply c_try_get|]. intros [l|e]; [|bl]. destruct (old =? new); [bl|].
    do 2 (apply below_bind; [apply c_each_iter|]; intros ?). apply below_bind; [apply c_rebase_list|]. intros [[? [? ?]] ?]. bl.
  Qed.
  Lemma c_rebase_and_delete old new st : below (d_rebase_and_delete cf I old new st) (d_rebase_and_delete cf J old new st).
  Proof.
    unfold d_rebase_and_delete, d_rebase. destruct (old =? new); [bl|]. apply below_bind.
    - apply below_bind; [apply c_rebase_with|]. intros [[? ?] ?]. bl.
    - intros [st1 [u|e]]; [apply c_d_delete|bl].
  Qed.
  Lemma c_count_usages st i : below (d_count_usages cf I st i) (wd_count_usages cf J st i).
  Proof. unfold d_count_usages, wd_count_usages. dl. Qed.
  Lemma c_has_usages st i : below (d_has_usages cf I st i) (wd_has_usages cf J st i).
  Proof. unfold d_has_usages, wd_has_usages. apply below_bind; [apply c_count_usages|]. intros; bl. Qed.
  Lemma c_usages st i : below (d_usages cf I st i) (wd_usages cf J st i).
  Proof.
    unfold d_usages, wd_usages. apply below_bind; [apply c_count_usages|]. intros [n|e]; [|bl].
    do 2 (apply below_bind; [apply c_each_by|]; intros [? ?]). bl.
  Qed.
End Defaults.

Lemma below_unit cf tops lops : calls_below (unit_links cf tops lops) (wunit_links cf tops lops).
Proof.
  repeat split; cbn [li_count li_create li_each li_update li_delete li_get unit_links wunit_links]; intros.
  - now apply b_u_count. - now apply b_u_create. - assumption. - assumption. - now apply b_u_delete. - assumption.
Qed.
Lemma below_split cf tops lops : calls_below (split_links cf tops lops) (wsplit_links cf tops lops).
Proof.
  repeat split; cbn [li_count li_create li_each li_update li_delete li_get split_links wsplit_links]; intros.
  - now apply b_s_count. - now apply b_s_create. - assumption. - assumption. - now apply b_s_delete. - assumption.
Qed.

(** The calls and the methods of the trait, one after the other. *)
Lemma L_C101_calls cf tops lops :
  calls_below (unit_links cf tops lops) (wunit_links cf tops lops) /\
  calls_below (split_links cf tops lops) (wsplit_links cf tops lops).
Proof. split; [apply below_unit|apply below_split]. Qed.
Lemma L_C101_methods cf S (I J : LinksI S) : calls_below I J ->
  (forall st i v, d_count_usages cf I st i = Val v -> wd_count_usages cf J st i = Val v) /\
  (forall st i v, d_has_usages cf I st i = Val v -> wd_has_usages cf J st i = Val v) /\
  (forall st i v, d_usages cf I st i = Val v -> wd_usages cf J st i = Val v) /\
  (forall st v, d_create_point I st = Val v -> d_create_point J st = Val v) /\
  (forall s t st v, d_create_link I s t st = Val v -> d_create_link J s t st = Val v) /\
  (forall s t st v, d_get_or_create cf I s t st = Val v -> d_get_or_create cf J s t st = Val v) /\
  (forall st s t v, d_search cf I st s t = Val v -> d_search cf J st s t = Val v) /\
  (forall st q v, d_each_iter I st q = Val v -> d_each_iter J st q = Val v) /\
  (forall fuel st v, d_delete_all I fuel st = Val v -> d_delete_all J fuel st = Val v) /\
  (forall H B (h : uwrite H B) q st x v, d_delete_query_with I h q st x = Val v -> d_delete_query_with J h q st x = Val v) /\
  (forall H B (h : uwrite H B) i st x v, d_delete_usages_with cf I h i st x = Val v -> d_delete_usages_with cf J h i st x = Val v) /\
  (forall H B (h : uwrite H B) i j st x v, d_rebase_with cf I h i j st x = Val v -> d_rebase_with cf J h i j st x = Val v) /\
  (forall i j st v, d_rebase_and_delete cf I i j st = Val v -> d_rebase_and_delete cf J i j st = Val v).
Proof.
  intros B. split; [intros; now apply (c_count_usages cf S I J B)|]. split; [intros; now apply (c_has_usages cf S I J B)|].
  split; [intros; now apply (c_usages cf S I J B)|]. split; [intros; now apply (c_point S I J B)|].
  split; [intros; now apply (c_link S I J B)|]. split; [intros; now apply (c_get_or_create cf S I J B)|].
  split; [intros; now apply (c_search cf S I J B)|]. split; [intros; now apply (c_each_iter S I J B)|].
  split; [intros; now apply (c_delete_all S I J B)|]. split; [intros; now apply (c_delete_query S I J B)|].
  split; [intros; now apply (c_delete_usages cf S I J B)|]. split; [intros; now apply (c_rebase_with cf S I J B)|].
  intros; now apply (c_rebase_and_delete cf S I J B).
Qed.

(** The same histories, of stores built without the checks. *)
Definition wu_hist (cf : cfg) (tops : tree_ops) (lops : list_ops) : ust -> list N -> Prop :=
  hist (wunit_links cf tops lops) (u_start cf) (u_reopen cf tops lops)
    (fun st i _ _ => u_okc cf tops lops st i) (u_okc cf tops lops).
Definition ws_hist (cf : cfg) (tops : tree_ops) (lops : list_ops) : sst -> list N -> Prop :=
  let I := wsplit_links cf tops lops in
  histc I (s_start cf) (s_reopen cf tops lops) (s_oku I) (s_okd I) (s_okc I).

Section Histories.
  Variables (cf : cfg) (tops : tree_ops) (lops : list_ops).
  Hypothesis ENV : unit_env cf tops lops.
  Notation U := (unit_links cf tops lops).
  Notation WU := (wunit_links cf tops lops).
  Notation SL := (split_links cf tops lops).
  Notation WS := (wsplit_links cf tops lops).

  Lemma wsub_ok a b : b <= a -> wsub (c_tmax cf) a b = Val (a - b).
  Proof. intros L. unfold wsub. destruct (N.leb_spec b a); [reflexivity|lia]. Qed.
  (** A creation that does not return is the one of a release build too: no address for the new
      length. *)
  Lemma u_create_val st a H (h : whandler H) q x : uinv cf st a ->
    (exists v, li_create U H h q st x = Val v) \/ li_create WU H h q st x = Panic.
  Proof.
    intros K. cbn [li_create unit_links wunit_links]. destruct ENV as (CF & _ & LOK).
    destruct (u_create_ok cf CF lops LOK st a q K) as [(NF & EF & NR & EO & TM & LE & P)|[[_ F]|[(_ & _ & _ & _ & F)|(_ & st2 & _ & C)]]].
    - right. destruct K as [R _]. pose proof (ur_res1 _ _ _ R). pose proof (ur_res2 _ _ _ R). pose proof (ur_len _ _ _ R). pose proof (ok_step _ CF).
      unfold wu_create. rewrite (u_header_ok _ _ _ R). cbn [obind].
      rewrite (ur_first _ _ _ R), (ok_null _ CF), EF, (ur_alloc _ _ _ R). cbn [hd N.eqb].
      destruct (N.leb_spec (c_iend cf) (a_top a)); [exfalso; apply NF; split; auto|]. unfold wu_grow.
      rewrite wsub_ok by lia. cbn [obind]. rewrite (ur_alloc _ _ _ R). destruct (N.leb_spec (h_reserved st - 1) (a_top a)) as [G|G].
      2:{ exfalso. specialize (P H h x). unfold u_create in P. rewrite (u_header_ok _ _ _ R) in P. cbn [obind] in P.
          rewrite (ur_first _ _ _ R), (ok_null _ CF), EF, (ur_alloc _ _ _ R) in P. cbn [hd N.eqb] in P.
          destruct (N.leb_spec (c_iend cf) (a_top a)); [lia|]. unfold u_grow in P. rewrite csub_ok in P by lia. cbn [obind] in P.
          rewrite (ur_alloc _ _ _ R) in P. destruct (N.leb_spec (h_reserved st - 1) (a_top a)); [lia|]. cbn [obind] in P.
          pose proof (ok_iend _ CF). pose proof (ok_any _ CF).
          rewrite (ur_alloc _ _ _ R), cadd_ok in P by lia. cbn [obind] in P. destruct (h x nothing (mkLink (a_top a + 1) 0 0)). discriminate. }
      unfold u_alloc_mem. rewrite EO. unfold u_header. cbn [u_len]. destruct (N.ltb_spec 0 (u_len st + c_step cf)); [|lia]. cbn [obind].
      unfold ctry. destruct (N.leb_spec (u_len st + c_step cf) (c_tmax cf)); [lia|reflexivity].
    - left. eexists. apply F.
    - left. eexists. apply F.
    - left. eexists. apply C.
  Qed.
  Lemma u_delete_val st a H (h : whandler H) q i x : uinv cf st a -> qget q 0 = Val i -> u_okc cf tops lops st i ->
    exists v, li_delete U H h q st x = Val v.
  Proof.
    intros K Q OC. pose proof (e_ok cf tops lops ENV) as OK. destruct (a_map a i) as [[s t]|] eqn:E.
    - destruct (lo_delete _ _ _ _ OK _ _ q i s t K Q E) as (st' & _ & C); [|eexists; apply C].
      destruct OC as [C|C]; [apply (ob_none cf _ _ _ OK _ _ _ K) in C; congruence|]. now apply (ob_sep cf _ _ _ OK _ _ _ K) in C.
    - eexists. apply (lo_delete_none _ _ _ _ OK _ _ q i K Q E).
  Qed.
  Lemma wu_to st d : wu_hist cf tops lops st d -> u_hist cf tops lops st d.
  Proof.
    induction 1 as [st X|st d H h q x st' x' r X IH E|st d H h q ch i s t x st' x' r X IH Q1 Q2 Q3 O E
      |st d H h q i x st' x' f X IH Q O E|st d H h q i x st' x' f X IH Q O E|st d st' X IH R].
    - now apply hist_start.
    - destruct (u_hist_inv cf tops lops ENV st d IH) as (a & K & _). destruct (u_create_val st a H h q x K) as [[v V]|V]; [|congruence].
      pose proof (proj1 (proj2 (below_unit cf tops lops)) _ _ _ _ _ _ V) as V'. rewrite E in V'. injection V' as <-.
      eapply hist_create; eauto.
    - eapply hist_update; eauto.
    - destruct (u_hist_inv cf tops lops ENV st d IH) as (a & K & _). destruct (u_delete_val st a H h q i x K Q O) as [v V].
      pose proof (b_u_delete cf tops lops _ _ _ _ _ _ V) as V'. cbn [li_delete wunit_links] in E. rewrite E in V'. injection V' as <-.
      eapply hist_delete; eauto.
    - destruct (u_hist_inv cf tops lops ENV st d IH) as (a & K & _). destruct (u_delete_val st a H h q i x K Q O) as [v V].
      pose proof (b_u_delete cf tops lops _ _ _ _ _ _ V) as V'. cbn [li_delete wunit_links] in E. rewrite E in V'. injection V' as <-.
      eapply hist_delete_err; eauto.
    - eapply hist_reopen; eauto.
  Qed.
  Lemma u_to st d : u_hist cf tops lops st d -> wu_hist cf tops lops st d.
  Proof.
    induction 1 as [st X|st d H h q x st' x' r X IH E|st d H h q ch i s t x st' x' r X IH Q1 Q2 Q3 O E
      |st d H h q i x st' x' f X IH Q O E|st d H h q i x st' x' f X IH Q O E|st d st' X IH R].
    - now apply hist_start.
    - eapply hist_create; [exact IH|]. apply below_unit in E. exact E.
    - eapply hist_update; eauto.
    - eapply hist_delete; [exact IH|exact Q|exact O|]. apply below_unit in E. exact E.
    - eapply hist_delete_err; [exact IH|exact Q|exact O|]. apply below_unit in E. exact E.
    - eapply hist_reopen; eauto.
  Qed.

  Lemma s_create_val st a H (h : whandler H) q x : srep cf st a ->
    (exists v, li_create SL H h q st x = Val v) \/ li_create WS H h q st x = Panic.
  Proof.
    intros [K O]. cbn [li_create split_links wsplit_links]. destruct ENV as (CF & _ & LOK).
    destruct (full_dec cf a) as [F|NF]; [left; eexists; now apply (s_create_full cf CF tops lops st a q K)|].
    destruct (must_grow_dec cf st a K) as [G|NG].
    - destruct (s_orc st 0%nat (s_dcap st + c_step cf) (s_ilen st + c_step cf)) eqn:EO.
      + left. eexists. now apply (s_create_nodata cf CF tops lops st a q K G EO).
      + exfalso. now apply O in EO.
      + destruct (N.le_gt_cases (s_ilen st + c_step cf) (c_tmax cf)) as [LE|GT].
        * left. destruct (s_create_succ cf CF tops lops LOK st a q K NF) as (st' & R' & OO & C); auto. eexists. apply C.
        * right. destruct K as (R & _). destruct G as (EF & TI & GR). pose proof (sm_res1 _ _ _ _ _ R). pose proof (ok_step _ CF).
          unfold ws_create. rewrite (s_header_ok _ _ _ _ _ R). cbn [obind].
          rewrite (sm_first _ _ _ _ _ R), EF, (ok_null _ CF), (sm_alloc _ _ _ _ _ R). cbn [hd N.eqb].
          destruct (N.leb_spec (c_iend cf) (a_top a)); [lia|]. unfold ws_grow. rewrite (sm_alloc _ _ _ _ _ R).
          rewrite wsub_ok by lia. cbn [obind]. destruct (N.leb_spec (sh_reserved st - 1) (a_top a)); [|lia].
          unfold s_alloc_mem. rewrite EO. unfold s_header. cbn [s_ilen]. destruct (N.ltb_spec 0 (s_ilen st + c_step cf)); [|lia]. cbn [obind].
          unfold ctry. destruct (N.leb_spec (s_ilen st + c_step cf) (c_tmax cf)); [lia|reflexivity].
    - left. destruct (s_create_succ cf CF tops lops LOK st a q K NF) as (st' & R' & OO & C); [tauto|]. eexists. apply C.
  Qed.
  Lemma s_delete_val st a H (h : whandler H) q i x : srep cf st a -> qget q 0 = Val i -> s_okd SL st i ->
    exists v, li_delete SL H h q st x = Val v.
  Proof.
    intros K Q OC. pose proof (f_ok cf tops lops ENV) as OK. destruct (a_map a i) as [[s t]|] eqn:E.
    - destruct (lo_delete _ _ _ _ OK _ _ q i s t K Q E) as (st' & _ & C); [|eexists; apply C].
      apply (ob_okd cf tops lops ENV) with (1 := K); [congruence|exact OC].
    - eexists. apply (lo_delete_none _ _ _ _ OK _ _ q i K Q E).
  Qed.
  Lemma ws_to st d : ws_hist cf tops lops st d -> s_hist cf tops lops st d.
  Proof.
    induction 1 as [st X|st d H h q x st' x' r X IH E O|st d H h q ch i s t x st' x' r X IH Q1 Q2 Q3 O E
      |st d H h q i x st' x' f X IH Q O E|st d H h q i x st' x' f X IH Q O E|st d st' X IH R].
    - now apply histc_start.
    - destruct (s_hist_inv cf tops lops ENV st d IH) as (a & K & _). destruct (s_create_val st a H h q x K) as [[v V]|V]; [|congruence].
      pose proof V as V'. apply (below_split cf tops lops) in V'. rewrite E in V'. injection V' as <-.
      eapply histc_create; [exact IH|exact V|exact O].
    - eapply histc_update; [exact IH|exact Q1|exact Q2|exact Q3|exact O|exact E].
    - destruct (s_hist_inv cf tops lops ENV st d IH) as (a & K & _). destruct (s_delete_val st a H h q i x K Q O) as [v V].
      pose proof V as V'. apply (below_split cf tops lops) in V'. rewrite E in V'. injection V' as <-.
      eapply histc_delete; [exact IH|exact Q|exact O|exact V].
    - destruct (s_hist_inv cf tops lops ENV st d IH) as (a & K & _). destruct (s_delete_val st a H h q i x K Q O) as [v V].
      pose proof V as V'. apply (below_split cf tops lops) in V'. rewrite E in V'. injection V' as <-.
      eapply histc_delete_err; [exact IH|exact Q|exact O|exact V].
    - eapply histc_reopen; eauto.
  Qed.
  Lemma s_to st d : s_hist cf tops lops st d -> ws_hist cf tops lops st d.
  Proof.
    induction 1 as [st X|st d H h q x st' x' r X IH E O|st d H h q ch i s t x st' x' r X IH Q1 Q2 Q3 O E
      |st d H h q i x st' x' f X IH Q O E|st d H h q i x st' x' f X IH Q O E|st d st' X IH R].
    - now apply histc_start.
    - eapply histc_create; [exact IH|apply below_split in E; exact E|exact O].
    - eapply histc_update; [exact IH|exact Q1|exact Q2|exact Q3|exact O|exact E].
    - eapply histc_delete; [exact IH|exact Q|exact O|]. apply below_split in E. exact E.
    - eapply histc_delete_err; [exact IH|exact Q|exact O|]. apply below_split in E. exact E.
    - eapply histc_reopen; eauto.
  Qed.
End Histories.

Lemma L_C101_histories_unit cf tops lops st d : unit_env cf tops lops ->
  wu_hist cf tops lops st d <-> u_hist cf tops lops st d.
Proof. intros ENV. split; [now apply wu_to|now apply u_to]. Qed.
Lemma L_C101_histories_split cf tops lops st d : unit_env cf tops lops ->
  ws_hist cf tops lops st d <-> s_hist cf tops lops st d.
Proof. intros ENV. split; [now apply ws_to|now apply s_to]. Qed.

(** What the counts of the users of a link give: the numbers of links, reduced. *)
Definition reduced_counts {S} (cf : cfg) (I : LinksI S) (st : S) (i : N) : Prop :=
  (exists L1 L2, NoDup L1 /\ NoDup L2 /\
     (forall l, In l L1 <-> li_get I st (l_index l) = Val (Some l) /\ l_source l = i) /\
     (forall l, In l L2 <-> li_get I st (l_index l) = Val (Some l) /\ l_target l = i) /\
     li_count I st [c_any cf; i] = Val (N.of_nat (length (L1 ++ L2)) mod (c_tmax cf + 1)) /\
     d_found I st [c_any cf; i] = Val (negb (N.of_nat (length (L1 ++ L2)) mod (c_tmax cf + 1) =? 0))) /\
  (exists L1 L2, NoDup L1 /\ NoDup L2 /\
     (forall l, In l L1 <-> li_get I st (l_index l) = Val (Some l) /\ l_index l <> i /\ l_source l = i) /\
     (forall l, In l L2 <-> li_get I st (l_index l) = Val (Some l) /\ l_index l <> i /\ l_target l = i) /\
     wd_count_usages cf I st i = Val (Ok (N.of_nat (length (L1 ++ L2)) mod (c_tmax cf + 1))) /\
     wd_has_usages cf I st i = Val (negb (N.of_nat (length (L1 ++ L2)) mod (c_tmax cf + 1) =? 0)) /\
     wd_usages cf I st i = Val (Ok (map l_index (L1 ++ L2)))).

Section Counts.
  Variables (cf : cfg) (S : Type) (sp : store_spec) (I J : LinksI S) (R : S -> astate -> Prop).
  Hypothesis CF : cfg_ok cf.
  Hypothesis IOK : links_ok cf sp I R.
  Hypothesis SPQ : forall st a i, R st a -> a_map a i <> None ->
    sp_query sp a [c_any cf; i; c_any cf] /\ sp_query sp a [c_any cf; c_any cf; i].
  Hypothesis IJ : calls_below I J.
  Hypothesis GE : forall st i, li_get J st i = li_get I st i.
  Hypothesis WSUM : forall st v A B, v <> c_any cf ->
    li_count J st [c_any cf; v; c_any cf] = Val A -> li_count J st [c_any cf; c_any cf; v] = Val B ->
    li_count J st [c_any cf; v] = Val ((A + B) mod (c_tmax cf + 1)).
  Notation any := (c_any cf).

  Lemma w_visits st q L : visits I st q L -> visits J st q L.
  Proof. intros [E C]. split; [intros; now apply IJ|now apply IJ]. Qed.
  Lemma w_counts st a i : R st a -> linked I st i -> reduced_counts cf J st i.
  Proof.
    intros HR M. apply (ob_linked cf sp I R IOK _ _ _ HR) in M.
    destruct (ov_visits cf S sp I R CF IOK SPQ st a i HR M) as (L1 & L2 & V1 & V2 & P1 & P2).
    apply w_visits in V1, V2. destruct (exists_range cf sp I R IOK _ _ _ CF HR M) as (I0 & IA & IE).
    pose proof (lo_wf _ _ _ _ IOK _ _ HR) as W. split.
    - destruct (ov_links cf S sp I R IOK _ _ _ _ HR P1) as [N1 O1]. destruct (ov_links cf S sp I R IOK _ _ _ _ HR P2) as [N2 O2].
      exists L1, L2. split; [exact N1|]. split; [exact N2|].
      split; [intros l; rewrite GE, O1, N.eqb_eq; reflexivity|]. split; [intros l; rewrite GE, O2, N.eqb_eq; reflexivity|].
      pose proof (WSUM st i _ _ IA (proj2 V1) (proj2 V2)) as E. rewrite <- Nat2N.inj_add, <- app_length in E. split; [exact E|].
      unfold d_found, d_count_by. rewrite E. reflexivity.
    - set (nf := fun l => negb (l_index l =? i)).
      pose proof (Permutation_filter nf _ _ P1) as Q1. pose proof (Permutation_filter nf _ _ P2) as Q2. rewrite filter_filter in Q1, Q2.
      destruct (ov_links cf S sp I R IOK _ _ _ _ HR Q1) as [N1 O1]. destruct (ov_links cf S sp I R IOK _ _ _ _ HR Q2) as [N2 O2].
      exists (filter nf L1), (filter nf L2). split; [exact N1|]. split; [exact N2|].
      assert (TR : forall l (f : link -> N), nf l && (f l =? i) = true <-> l_index l <> i /\ f l = i).
      { intros l f. unfold nf. rewrite andb_true_iff, negb_true_iff, N.eqb_neq, N.eqb_eq. reflexivity. }
      split; [intros l; rewrite GE, O1, (TR l l_source); reflexivity|]. split; [intros l; rewrite GE, O2, (TR l l_target); reflexivity|].
      assert (C : wd_count_usages cf J st i = Val (Ok (N.of_nat (length (filter nf L1 ++ filter nf L2)) mod (c_tmax cf + 1)))).
      { destruct (a_map a i) as [[s t]|] eqn:E; [|congruence].
        unfold wd_count_usages, d_count_by. unfold d_try_get_link. rewrite GE, (lo_get _ _ _ _ IOK _ _ _ HR), E. cbn [obind olink l_source l_target].
        rewrite (proj2 V1), (proj2 V2). cbn [obind]. rewrite app_length.
        apply Permutation_length in P1, P2, Q1, Q2. rewrite Q1, Q2, P1, P2.
        rewrite (split_self a i _ s t W E), (split_self a i (fun l => l_target l =? i) s t W E).
        unfold nf. cbn [l_source l_target].
        rewrite (N.eqb_sym i s), (N.eqb_sym i t).
        set (A := length (filter (fun l => negb (l_index l =? i) && (l_source l =? i)) (alinks a))).
        set (B := length (filter (fun l => negb (l_index l =? i) && (l_target l =? i)) (alinks a))).
        assert (SUB : forall (b : bool) k, (if b then wsub (c_tmax cf) (N.of_nat (k + (if b then 1 else 0))) 1 else Val (N.of_nat (k + (if b then 1 else 0)))) = Val (N.of_nat k)).
        { intros [] k; [|f_equal; lia]. unfold wsub. destruct (N.leb_spec 1 (N.of_nat (k + 1))); f_equal; lia. }
        assert (SUB' : forall (b : bool) k, (if b then wsub (c_tmax cf) (N.of_nat ((if b then 1 else 0) + k)) 1 else Val (N.of_nat ((if b then 1 else 0) + k))) = Val (N.of_nat k)).
        { intros b k. rewrite Nat.add_comm. apply SUB. }
        rewrite ?SUB, ?SUB'. cbn [obind]. unfold wadd. rewrite Nat2N.inj_add. reflexivity. }
      split; [exact C|]. unfold wd_has_usages, wd_usages. rewrite C. cbn [obind]. split; [reflexivity|].
      erewrite (d_each_by_ok J) by exact V1; rewrite (urun_filter nf l_index). cbn [obind app].
      erewrite (d_each_by_ok J) by exact V2; rewrite (urun_filter nf l_index). cbn [obind]. now rewrite map_app.
  Qed.
End Counts.

Section Sums.
  Variables (cf : cfg).
  Hypothesis CF : cfg_ok cf.
  Lemma wu_sum st v A B : v <> c_any cf ->
    wu_count cf st [c_any cf; v; c_any cf] = Val A -> wu_count cf st [c_any cf; c_any cf; v] = Val B ->
    wu_count cf st [c_any cf; v] = Val ((A + B) mod (c_tmax cf + 1)).
  Proof.
    intros V. unfold wu_count, qget.
    rewrite (ok_ipart _ CF), (ok_spart _ CF), (ok_tpart _ CF).
    change (N.to_nat 0) with 0%nat. change (N.to_nat 1) with 1%nat. change (N.to_nat 2) with 2%nat. cbn [nth_error obind].
    rewrite !N.eqb_refl. destruct (N.eqb_spec v (c_any cf)); [contradiction|]. cbn [andb]. intros -> ->. cbn [obind]. unfold wadd. now rewrite N.add_comm.
  Qed.
  Lemma ws_sum st v A B : v <> c_any cf ->
    ws_count cf st [c_any cf; v; c_any cf] = Val A -> ws_count cf st [c_any cf; c_any cf; v] = Val B ->
    ws_count cf st [c_any cf; v] = Val ((A + B) mod (c_tmax cf + 1)).
  Proof.
    intros V. unfold ws_count, qget.
    rewrite (ok_ipart _ CF), (ok_spart _ CF), (ok_tpart _ CF).
    change (N.to_nat 0) with 0%nat. change (N.to_nat 1) with 1%nat. change (N.to_nat 2) with 2%nat. cbn [nth_error obind].
    rewrite !N.eqb_refl. destruct (s_is_virtual st v) as [vv| | |]; cbn [obind]; try discriminate.
    destruct (s_is_virtual st (c_any cf)); cbn [obind]; try discriminate.
    destruct (N.eqb_spec v (c_any cf)); [contradiction|]. cbn [andb].
    destruct vv; intros -> ->; cbn [obind]; reflexivity.
  Qed.
End Sums.

(** In every state of a history the counts are the numbers of links, reduced. *)
Lemma L_C101_counts_unit cf tops lops st d i : let W := wunit_links cf tops lops in
  unit_env cf tops lops -> wu_hist cf tops lops st d -> linked W st i -> reduced_counts cf W st i.
Proof.
  intros W ENV HH LI. apply wu_to in HH; auto. destruct (u_hist_inv cf tops lops ENV st d HH) as (a & K & _).
  apply (w_counts cf _ _ (unit_links cf tops lops) W _ (proj1 ENV) (e_ok _ _ _ ENV) (u_spq cf tops lops ENV) (below_unit _ _ _)) with (a := a); auto.
  intros. eapply wu_sum; eauto. apply ENV.
Qed.
Lemma L_C101_counts_split cf tops lops st d i : let W := wsplit_links cf tops lops in
  unit_env cf tops lops -> ws_hist cf tops lops st d -> linked W st i -> reduced_counts cf W st i.
Proof.
  intros W ENV HH LI. apply ws_to in HH; auto. destruct (s_hist_inv cf tops lops ENV st d HH) as (a & K & _).
  apply (w_counts cf _ _ (split_links cf tops lops) W _ (proj1 ENV) (f_ok _ _ _ ENV) (s_spq cf tops lops ENV) (below_split _ _ _)) with (a := a); auto.
  intros. eapply ws_sum; eauto. apply ENV.
Qed.

(** As long as no two links have the same pair, nothing is reduced. *)
Lemma L_C101_distinct_unit_partial cf tops lops st d i : let W := wunit_links cf tops lops in
  unit_env cf tops lops -> wu_hist cf tops lops st d -> distinct_pairs W st -> linked W st i ->
  exists l, wd_usages cf W st i = Val (Ok l) /\ wd_count_usages cf W st i = Val (Ok (N.of_nat (length l))) /\
    wd_has_usages cf W st i = Val (match l with [] => false | _ => true end).
Proof.
  intros W ENV HH DP LI. apply wu_to in HH; auto. pose proof (below_unit cf tops lops) as B.
  destruct (L_C80_unit_distinct_partial cf tops lops st d i ENV HH DP LI) as [_ (l & E1 & E2 & E3)]. exists l.
  split; [now apply (c_usages cf _ _ _ B)|]. split; [now apply (c_count_usages cf _ _ _ B)|now apply (c_has_usages cf _ _ _ B)].
Qed.
Lemma L_C101_distinct_split_partial cf tops lops st d i : let W := wsplit_links cf tops lops in
  unit_env cf tops lops -> ws_hist cf tops lops st d -> distinct_pairs W st -> linked W st i ->
  exists l, wd_usages cf W st i = Val (Ok l) /\ wd_count_usages cf W st i = Val (Ok (N.of_nat (length l))) /\
    wd_has_usages cf W st i = Val (match l with [] => false | _ => true end).
Proof.
  intros W ENV HH DP LI. apply ws_to in HH; auto. pose proof (below_split cf tops lops) as B.
  destruct (L_C80_split_distinct_partial cf tops lops st d i ENV HH DP LI) as [_ (l & E1 & E2 & E3)]. exists l.
  split; [now apply (c_usages cf _ _ _ B)|]. split; [now apply (c_count_usages cf _ _ _ B)|now apply (c_has_usages cf _ _ _ B)].
Qed.

(** The full statement fails: an address type up to 15 and nine links 1 -> 1.  Link 1 is used by
    eight others on both sides, so its sixteen uses are reduced to none. *)
Notation ov_W := (wunit_links ov_cf ref_tree_ops ref_list_ops).
Notation ov_WS := (wsplit_links ov_cf ref_tree_ops ref_list_ops).
Lemma L_C101_refuted :
  unit_env ov_cf ref_tree_ops ref_list_ops /\ c_iend ov_cf + 1 + c_step ov_cf <= c_tmax ov_cf /\
  (exists st d, wu_hist ov_cf ref_tree_ops ref_list_ops st d /\ is_link ov_W st 1 1 1 /\ is_link ov_W st 2 1 1 /\
     li_count ov_W st [c_any ov_cf; 1] = Val 2 /\ wd_count_usages ov_cf ov_W st 1 = Val (Ok 0) /\ wd_has_usages ov_cf ov_W st 1 = Val false /\
     wd_usages ov_cf ov_W st 1 = Val (Ok [2; 3; 4; 5; 6; 7; 8; 9; 2; 3; 4; 5; 6; 7; 8; 9])) /\
  (exists st d, ws_hist ov_cf ref_tree_ops ref_list_ops st d /\ is_link ov_WS st 1 1 1 /\ is_link ov_WS st 2 1 1 /\
     li_count ov_WS st [c_any ov_cf; 1] = Val 2 /\ wd_count_usages ov_cf ov_WS st 1 = Val (Ok 0) /\ wd_has_usages ov_cf ov_WS st 1 = Val false /\
     wd_usages ov_cf ov_WS st 1 = Val (Ok [2; 3; 4; 5; 6; 7; 8; 9; 2; 3; 4; 5; 6; 7; 8; 9])).
Proof.
  split; [exact ov_env|]. split; [vm_compute; discriminate|]. split.
  - destruct ov_reach as [d HH]. exists ov_st, d. split; [exact (u_to _ _ _ _ _ HH)|]. unfold is_link. do 5 (split; [vm_compute; reflexivity|]). vm_compute; reflexivity.
  - destruct ov_sreach as [d HH]. exists ov_sst, d. split; [exact (s_to _ _ _ _ _ HH)|]. unfold is_link. do 5 (split; [vm_compute; reflexivity|]). vm_compute; reflexivity.
Qed.
(** After the interrupted update of C87, where builds with the checks panic, link 2 refers to itself
    and is in one of the two trees: the subtraction for the other one goes below zero and the link,
    used by no other, has as many usages as the address type can hold. *)
Lemma L_C101_crashed_refuted : exists st L C, life ex_cf ref_tree_ops ref_list_ops st L C /\ is_link ex_U st 2 2 2 /\
  d_count_usages ex_cf ex_U st 2 = Panic /\
  (let W := wunit_links ex_cf ref_tree_ops ref_list_ops in
   wd_count_usages ex_cf W st 2 = Val (Ok (c_tmax ex_cf)) /\ wd_has_usages ex_cf W st 2 = Val true /\ wd_usages ex_cf W st 2 = Val (Ok [])).
Proof.
  eexists _, _, _. split; [exact ex_self_life|]. split; [unfold is_link; vm_compute; reflexivity|].
  split; [vm_compute; reflexivity|]. cbv zeta. split; [vm_compute; reflexivity|]. split; vm_compute; reflexivity.
Qed.
(** The hypotheses are met, with calls that return in both builds. *)
Lemma L_C101_nonvacuous : c_iend ex_cf + 1 + c_step ex_cf <= c_tmax ex_cf /\
  (let W := wunit_links ex_cf ref_tree_ops ref_list_ops in
   exists st d, wu_hist ex_cf ref_tree_ops ref_list_ops st d /\ distinct_pairs W st /\ linked W st 1 /\
     li_count W st [c_any ex_cf; 1] = Val 4 /\ d_count_usages ex_cf ex_U st 1 = wd_count_usages ex_cf W st 1 /\ wd_has_usages ex_cf W st 1 = Val true) /\
  (let W := wsplit_links ex_cf ref_tree_ops ref_list_ops in
   exists st d, ws_hist ex_cf ref_tree_ops ref_list_ops st d /\ distinct_pairs W st /\ linked W st 1 /\
     li_count W st [c_any ex_cf; 1] = Val 4 /\ d_count_usages ex_cf ex_S st 1 = wd_count_usages ex_cf W st 1 /\ wd_has_usages ex_cf W st 1 = Val true).
Proof.
  assert (DU : distinct_pairs ex_U (ex_st ex3)) by (apply ex_distinct; vm_compute; reflexivity).
  assert (DW : forall cf tops lops st, distinct_pairs (unit_links cf tops lops) st -> distinct_pairs (wunit_links cf tops lops) st) by (intros; assumption).
  assert (DV : forall cf tops lops st, distinct_pairs (split_links cf tops lops) st -> distinct_pairs (wsplit_links cf tops lops) st) by (intros; assumption).
  split; [vm_compute; discriminate|]. split; cbv zeta.
  - destruct (ex_reach ex3) as (d & HH & _); [vm_compute; reflexivity..|]. exists (ex_st ex3), d. split; [exact (u_to _ _ _ _ _ HH)|].
    split; [exact (DW _ _ _ _ DU)|]. split; [exists 1, 1; unfold is_link; vm_compute; reflexivity|]. do 2 (split; [vm_compute; reflexivity|]). vm_compute; reflexivity.
  - destruct ex3_sreach as (d & HH & DP & L1 & _). exists (ex_sst ex3), d. split; [exact (s_to _ _ _ _ _ HH)|]. split; [exact (DV _ _ _ _ DP)|].
    split; [exists 1, 1; unfold is_link; vm_compute; reflexivity|]. do 2 (split; [vm_compute; reflexivity|]). vm_compute; reflexivity.
Qed.
