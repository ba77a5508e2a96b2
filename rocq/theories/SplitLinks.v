(** The two-memory store implements the abstract store. *)
From Coq Require Import NArith List Bool Lia Permutation.
From Verif Require Import Base Trees Lists TreeInv Spec Iface UnitModel UnitInv UnitOps LinkModel SplitModel Forest
  SplitInv SplitReads SplitOps SplitWrites.
Import ListNotations.
Open Scope N_scope.

(** impl Links/Doublets for split::Store, store.rs:540-870 *)
Definition split_links (cf : cfg) (tops : tree_ops) (lops : list_ops) : LinksI sst :=
  mkLinksI sst
    (s_count cf)
    (fun H h q st x => s_create cf tops lops h q st x)
    (fun H h q st x => s_each cf h q st x)
    (fun H h q ch st x => s_update cf tops h q ch st x)
    (fun H h q st x => s_delete cf tops lops h q st x)
    (s_get_link cf).

(** Discipline of the two-memory store. *)
Definition split_spec (cf : cfg) : store_spec :=
  mkSpec
    (fun a => (a_full cf a \/ a_free a <> [] \/ room cf a) /\ unreferenced a (a_next a))
    split_update_ok
    split_delete_ok
    (fun a q => each_q cf a q /\ count_q cf a q).

(** No allocation of the index memory fails after that of the data memory succeeded. *)
Definition both_or_none (orc : nat -> N -> N -> grown) : Prop := forall k d i, orc k d i <> NoIndex.

Definition srep (cf : cfg) (st : sst) (a : astate) : Prop := sinv cf st a /\ both_or_none (s_orc st).

Section Links.
  Variable cf : cfg.
  Hypothesis CF : cfg_ok cf.
  Variable tops : tree_ops.
  Hypothesis TOK : tree_ops_ok tops.
  Variable lops : list_ops.
  Hypothesis LOK : list_ops_ok lops.

  Lemma must_grow_dec st a : sinv cf st a -> s_must_grow cf st a \/ ~ s_must_grow cf st a.
  Proof.
    intros _. unfold s_must_grow. destruct (a_free a); [|right; intros [K _]; discriminate].
    destruct (N.ltb_spec (a_top a) (c_iend cf)); [|right; lia].
    destruct (N.leb_spec (sh_reserved st - 1) (a_top a)); [left; auto|right; lia].
  Qed.

  Lemma full_dec a : a_full cf a \/ ~ a_full cf a.
  Proof.
    unfold a_full. destruct (a_free a); [|right; intros [K _]; discriminate].
    destruct (N.le_gt_cases (c_iend cf) (a_top a)); [left; auto|right; lia].
  Qed.

  Lemma grow_room st a : sinv cf st a -> s_must_grow cf st a -> room cf a -> s_ilen st + c_step cf <= c_tmax cf.
  Proof.
    intros (R & _) (_ & _ & G) RM. pose proof (sm_res2 _ _ _ _ _ R). pose proof (sm_res1 _ _ _ _ _ R).
    unfold room in RM. lia.
  Qed.

  (** All outcomes of create_links. *)
  Theorem s_create_ok st a q : srep cf st a ->
    (exists c, c_tmax cf < c /\ s_must_grow cf st a /\ ~ room cf a /\
       forall H (h : whandler H) x, s_create cf tops lops h q st x = Panic) \/
    (a_full cf a /\ fails_with (fun H h x => s_create cf tops lops h q st x) st (LimitReached (c_iend cf))) \/
    (~ a_full cf a /\ a_free a = [] /\ exists st', srep cf st' a /\
       fails_with (fun H h x => s_create cf tops lops h q st x) st' AllocFailed) \/
    (~ a_full cf a /\ exists st', smem cf st' (a_create a) (spl a) (tpl a) /\ both_or_none (s_orc st') /\
       calls_once (fun H h x => s_create cf tops lops h q st x) st' nothing (mkLink (a_next a) 0 0)).
  Proof.
    intros [I O].
    assert (NO : both_or_none (next_orc st)) by (intros k d i; apply O).
    destruct (full_dec a) as [F|NF].
    { right; left. split; auto. eapply s_create_full; eauto. }
    destruct (must_grow_dec st a I) as [G|NG].
    - destruct (s_orc st 0%nat (s_dcap st + c_step cf) (s_ilen st + c_step cf)) eqn:EO.
      + right; right; left. split; auto. split; [apply G|].
        destruct (s_create_nodata cf CF tops lops st a q I G EO) as [I' F].
        eexists. split; [|exact F]. split; auto.
      + exfalso. now apply O in EO.
      + destruct (N.le_gt_cases (s_ilen st + c_step cf) (c_tmax cf)) as [LE|GT].
        * right; right; right. split; auto.
          destruct (s_create_succ cf CF tops lops LOK st a q I NF) as (st' & R' & OO & C); auto.
          exists st'. split; auto. split; auto. destruct OO as [->| ->]; auto.
        * left. eexists. split; [exact GT|]. split; auto. split.
          -- intros RM. pose proof (grow_room _ _ I G RM). lia.
          -- eapply s_create_panic; eauto.
    - right; right; right. split; auto.
      destruct (s_create_succ cf CF tops lops LOK st a q I NF) as (st' & R' & OO & C); [tauto|].
      exists st'. split; auto. split; auto. destruct OO as [->| ->]; auto.
  Qed.

  Theorem split_links_ok : links_ok cf (split_spec cf) (split_links cf tops lops) (srep cf).
  Proof.
    constructor; cbn [li_count li_create li_each li_update li_delete li_get split_links
      sp_create sp_update sp_delete sp_query split_spec].
    - intros st a [(_ & W & _) _]. exact W.
    - intros st a [(R & _) _]. apply R.
    - intros st a i [(R & _ & V) _]. eapply s_get_link_ok; eauto. now apply all_placed_tpl.
    - intros st a q [I _] [EQ CQ].
      destruct (s_each_ok cf CF st a I q EQ) as (L & VO & E). exists L. split; auto. split; auto.
      rewrite (s_count_ok cf CF st a I q CQ). f_equal. symmetry. eapply visits_count; eauto.
    - intros st a q ch i s t [I O] Q1 Q2 Q3 M D. destruct (a_map a i) as [[os ot]|] eqn:E; [|congruence].
      destruct (s_update_ok cf CF tops TOK st a q ch i os ot s t I Q1 Q2 Q3 E D) as (st' & I' & (_ & _ & M') & C).
      exists st', (mkLink i os ot). split; auto. split; auto. now rewrite M'.
    - intros st a q ch i s t [I O]. intros. eapply s_update_none; eauto.
    - intros st a q i s t [I O] Q M D.
      destruct (s_delete_ok cf CF tops TOK lops LOK st a q i s t I Q M D) as (st' & I' & (_ & _ & M') & C).
      exists st'. split; auto. split; auto. now rewrite M'.
    - intros st a q i [I O]. intros. eapply s_delete_none; eauto.
    - intros st a q K [RM UR].
      destruct (s_create_ok st a q K) as [(c & _ & (G1 & G2 & _) & NR & _)|[C|[C|(NF & st' & R' & O' & C)]]]; auto.
      + destruct RM as [[_ F]|[F|F]]; [lia|congruence|contradiction].
      + right; right. split; auto. exists st'. split; auto. split; auto.
        destruct K as [(_ & W & V) _]. now apply sinv_create.
  Qed.
End Links.
