(** The single-memory store implements the abstract store. *)
From Coq Require Import NArith List Bool Lia Permutation.
From Verif Require Import Base Trees Lists Spec Iface UnitModel UnitInv UnitOps.
Import ListNotations.
Open Scope N_scope.

(** impl Links/Doublets for unit::Store, store.rs:322-568 *)
Definition unit_links (cf : cfg) (tops : tree_ops) (lops : list_ops) : LinksI ust :=
  mkLinksI ust
    (u_count cf)
    (fun H h q st x => u_create cf lops h q st x)
    (fun H h q st x => u_each cf h q st x)
    (fun H h q ch st x => u_update cf tops h q ch st x)
    (fun H h q st x => u_delete cf tops lops h q st x)
    (u_get_link cf).

(** Discipline of the single-memory store: room for growth, no removal of a linked node
    from a tree while duplicate pairs exist, queries of at most three parts. *)
Definition unit_spec (cf : cfg) : store_spec :=
  mkSpec
    (fun a => a_full cf a \/ a_free a <> [] \/ room cf a)
    (fun a i _ _ => detachable a i)
    (fun a i => detachable a i)
    (fun a q => (length q <= 3)%nat /\ (length q = 2%nat -> 2 * a_top a <= c_tmax cf)).

Theorem unit_links_ok cf tops lops :
  cfg_ok cf -> tree_ops_ok tops -> list_ops_ok lops ->
  links_ok cf (unit_spec cf) (unit_links cf tops lops) (uinv cf).
Proof.
  intros CF TOK LOK. constructor; cbn [li_count li_create li_each li_update li_delete li_get unit_links
    sp_create sp_update sp_delete sp_query unit_spec].
  - intros st a [_ W]. exact W.
  - intros st a [R _]. apply R.
  - intros st a i [R _]. now apply u_get_link_ok.
  - intros st a q [R _] [L D]. now apply u_each_count_ok.
  - intros st a q ch i s t U Q1 Q2 Q3 M D.
    destruct (u_update_ok cf CF tops TOK st a q ch i s t U Q1 Q2 Q3 M D) as (st' & U' & _ & _ & C).
    exists st', (mkLink i s t). auto.
  - intros. eapply u_update_none; eauto.
  - intros st a q i s t U Q M D.
    destruct (u_delete_ok cf CF tops TOK lops LOK st a q i s t U Q M D) as (st' & U' & _ & _ & C).
    exists st'. auto.
  - intros. eapply u_delete_none; eauto.
  - intros st a q U RM.
    destruct (u_create_ok cf CF lops LOK st a q U) as [(K1 & K3 & K2 & _)|[K|[(K1 & K2 & _ & K3 & K4)|K]]]; auto.
    { tauto. }
    right; left. split; auto. split; auto. exists (u_alloc_failed st). auto.
Qed.
