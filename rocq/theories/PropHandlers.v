(** Property theorems: handlers watch *)
From Coq Require Import NArith List Bool Lia.
From Verif Require Import HandlerClaims Base Trees Lists TreeImpl Spec Iface Doublets Decorators UnitModel UnitLinks UnitHist SplitModel SplitLinks
  Obs Hist UnitClaims SplitHist SplitClaims Ffi DecoratorClaims.
Import ListNotations.
Open Scope N_scope.

(** Any decorators around either store, in any state, for every modifying method: there is one
    script of calls, final store and success or error, the same for all handlers. *)
Theorem C66_unit :
  forall cf tops lops ds,
  all_watched cf (wrapped cf ds (unit_links cf tops lops)).
Proof. exact L_C66_unit. Qed.
Print Assumptions C66_unit.

Theorem C66_split :
  forall cf tops lops ds,
  all_watched cf (wrapped cf ds (split_links cf tops lops)).
Proof. exact L_C66_split. Qed.
Print Assumptions C66_split.

(** So two handlers cannot lead to different stores or errors. *)
Theorem C66_same_effect :
  forall cf S (I : LinksI S) H1 (h1 : whandler H1) x1 H2 (h2 : whandler H2) x2 st,
  all_watched cf I ->
  (forall q, same_effect (li_create I H1 h1 q st x1) (li_create I H2 h2 q st x2)) /\
  (forall q ch, same_effect (li_update I H1 h1 q ch st x1) (li_update I H2 h2 q ch st x2)) /\
  (forall q, same_effect (li_delete I H1 h1 q st x1) (li_delete I H2 h2 q st x2)).
Proof. exact L_C66_same_effect. Qed.
Print Assumptions C66_same_effect.

Theorem C66_same_effect_provided :
  forall cf S (I : LinksI S) H1 B1 (h1 : uwrite H1 B1) x1 H2 B2 (h2 : uwrite H2 B2) x2 st,
  all_watched cf I ->
  (forall s t, same_effect (d_create_link_with I h1 s t st x1) (d_create_link_with I h2 s t st x2)) /\
  (forall q, same_effect (d_delete_query_with I h1 q st x1) (d_delete_query_with I h2 q st x2)) /\
  (forall i, same_effect (d_delete_usages_with cf I h1 i st x1) (d_delete_usages_with cf I h2 i st x2)) /\
  (forall old new, same_effect (d_rebase_with cf I h1 old new st x1) (d_rebase_with cf I h2 old new st x2)).
Proof. exact L_C66_same_effect_provided. Qed.
Print Assumptions C66_same_effect_provided.

Theorem C66_callbacks :
  forall cf S (I : LinksI S) fc H1 (cb1 : ccallback H1) x1 H2 (cb2 : ccallback H2) x2 st,
  all_watched cf I ->
  (forall p n, same_store (f_create fc I cb1 p n st x1) (f_create fc I cb2 p n st x2)) /\
  (forall p n p' n', same_store (f_update fc I cb1 p n p' n' st x1) (f_update fc I cb2 p n p' n' st x2)) /\
  (forall p n, same_store (f_delete fc I cb1 p n st x1) (f_delete fc I cb2 p n st x2)).
Proof. exact L_C66_callbacks. Qed.
Print Assumptions C66_callbacks.

(** A handler that breaks at every call and notes the links: both deletions happen. *)
Theorem C66_nonvacuous :
  let I := wrapped ex_cf [DNonNullDeletion; DCascadeUsages] ex_U in
  is_link ex_U (ex_st ex3) 2 1 2 /\ is_link ex_U (ex_st ex3) 3 2 1 /\
  exists st', li_delete I _ (fun v b a => (v ++ [(l_index b, l_index a)], Break)) [2] (ex_st ex3) [] =
    Val (st', [(2, 2); (3, 0); (2, 0)], Ok Break) /\ no_link ex_U st' 2 /\ no_link ex_U st' 3 /\ is_link ex_U st' 1 1 1.
Proof. exact L_C66_nonvacuous. Qed.
Print Assumptions C66_nonvacuous.
