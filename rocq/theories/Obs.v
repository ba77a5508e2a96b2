(** Vocabulary for the property statements: everything here is expressed through the
    public read operation [get_link] of an implementation and nothing else. *)
From Coq Require Import NArith List Bool Sorted.
From Verif Require Import Base Iface Doublets.
Import ListNotations.
Open Scope N_scope.

Section Obs.
  Variable cf : cfg.
  Context {S : Type}.
  Variable I : LinksI S.

  Definition is_link (st : S) (i s t : N) : Prop := li_get I st i = Val (Some (mkLink i s t)).
  Definition no_link (st : S) (i : N) : Prop := li_get I st i = Val None.
  Definition linked (st : S) (i : N) : Prop := exists s t, is_link st i s t.

  (** All links but [i] are as before. *)
  Definition frame (st st' : S) (i : N) : Prop := forall j, j <> i -> li_get I st' j = li_get I st j.
  Definition same_links (st st' : S) : Prop := forall j, li_get I st' j = li_get I st j.

  (** [L] lists every link of the store once, in ascending index order. *)
  Definition all_links (st : S) (L : list link) : Prop :=
    StronglySorted (fun k l => l_index k < l_index l) L /\
    forall i s t, In (mkLink i s t) L <-> is_link st i s t.

  (** No two links hold the same non-empty pair. *)
  Definition distinct_pairs (st : S) : Prop :=
    forall i j s t, is_link st i s t -> is_link st j s t -> (s, t) <> (0, 0) -> i = j.
  (** Link [i] may be changed or deleted: it is empty, or no other link has its pair. *)
  Definition separable (st : S) (i : N) : Prop :=
    is_link st i 0 0 \/ (forall j s t, is_link st i s t -> is_link st j s t -> j = i).

  Lemma distinct_separable st i : distinct_pairs st -> separable st i.
  Proof.
    intros D. unfold separable, is_link. destruct (li_get I st i) as [[[x s t]|]| | |] eqn:E.
    2-5: right; intros j s' t' E'; discriminate.
    destruct (N.eq_dec s 0) as [->|S0]; [destruct (N.eq_dec t 0) as [->|T0]|].
    2-3: right; intros j s' t' E' L; injection E' as E1 E2 E3; subst s' t' x; apply (D j i _ _ L E); congruence.
    destruct (N.eq_dec x i) as [->|X]; [now left|]. right. intros j s' t' E'. congruence.
  Qed.

  (** An unused index below a used one. *)
  Definition hole (st : S) (k : N) : Prop :=
    1 <= k /\ no_link st k /\ exists j, k < j /\ linked st j.

  (** What a creation does, observably. *)
  Definition creates (st st' : S) (i : N) : Prop :=
    1 <= i <= c_iend cf /\ no_link st i /\ is_link st' i 0 0 /\ frame st st' i /\
    exists n, li_count I st [] = Val n /\ li_count I st' [] = Val (n + 1).

  (** Every internal index is in use. *)
  Definition range_full (st : S) : Prop := forall i, 1 <= i <= c_iend cf -> linked st i.

  (** [st'] is [st] with the new link [i: s -> t]. *)
  Definition adds (st st' : S) (i s t : N) : Prop :=
    1 <= i <= c_iend cf /\ no_link st i /\ is_link st' i s t /\ frame st st' i.

  (** [st'] is [st] without the links of [L]. *)
  Definition removed (st st' : S) (L : list link) : Prop :=
    forall j, li_get I st' j = if in_dec N.eq_dec j (map l_index L) then Val None else li_get I st j.

  (** The links other than [i] that refer to [i]. *)
  Definition user (st : S) (i : N) (l : link) : Prop :=
    li_get I st (l_index l) = Val (Some l) /\ l_index l <> i /\ (l_source l = i \/ l_target l = i).

  Definition redirect (old new v : N) : N := if v =? old then new else v.
  (** The links a correct rebase leaves: every link but [old] has [old] replaced by
      [new] on both ends. *)
  Definition moved (st : S) (old new i s' t' : N) : Prop :=
    exists s t, is_link st i s t /\
      (if i =? old then s' = s /\ t' = t else s' = redirect old new s /\ t' = redirect old new t).

  (** Deleting the listed links one after the other, and creating [n] links. *)
  Fixpoint run_deletes (l : list N) (st : S) : out (S * result unit) :=
    match l with
    | [] => Val (st, Ok tt)
    | i :: l' => let* (st', r) := d_delete I i st in
                 match r with Ok _ => run_deletes l' st' | Err e => Val (st', Err e) end
    end.
  Fixpoint run_creates (n : nat) (st : S) : out (S * result (list N)) :=
    match n with
    | O => Val (st, Ok [])
    | Datatypes.S k => let* (st1, r) := d_create I st in
             match r with
             | Err e => Val (st1, Err e)
             | Ok i => let* (st2, r2) := run_creates k st1 in Val (st2, rmap (cons i) r2)
             end
    end.
End Obs.

(** A user handler told that the links of a list were removed, one after the other; its
    verdicts are ignored. *)
Definition told {H B} (h : uwrite H B) (l : list link) (x : H) : H :=
  fold_left (fun x k => fst (h x k nothing)) l x.

(** Query matching, read off the documentation of each_by: every given part must
    be the wildcard or equal; a two-part query asks for one end of the link. *)
Definition part_match (any p v : N) : Prop := p = any \/ p = v.
Definition query_match (any : N) (q : list N) (l : link) : Prop :=
  match q with
  | [] => True
  | [i] => part_match any i (l_index l)
  | [i; v] => part_match any i (l_index l) /\
              (part_match any v (l_source l) \/ part_match any v (l_target l))
  | [i; s; t] => part_match any i (l_index l) /\ part_match any s (l_source l) /\
                 part_match any t (l_target l)
  | _ => False
  end.

(** Queries with a wildcard index and a null end. *)
Definition null_query (any : N) (q : list N) : Prop :=
  match q with
  | [i; v] => i = any /\ v = 0
  | [i; s; t] => i = any /\ (s = 0 \/ (s = any /\ t = 0))
  | _ => False
  end.
(** Queries [[any; v]] for the links at one end of v. *)
Definition end_query (any : N) (q : list N) : Prop :=
  match q with [i; v] => i = any /\ v <> any | _ => False end.
(** Queries [[any; s; t]] for one pair. *)
Definition pair_query (any : N) (q : list N) : Prop :=
  match q with [i; s; t] => i = any /\ s <> any /\ t <> any | _ => False end.

(** At most one link matches the query. *)
Definition one_match (any : N) {S} (I : LinksI S) (st : S) (q : list N) : Prop :=
  forall l k, li_get I st (l_index l) = Val (Some l) -> query_match any q l ->
    li_get I st (l_index k) = Val (Some k) -> query_match any q k -> l = k.
Lemma separable_one_match any {S} (I : LinksI S) st q : pair_query any q -> ~ null_query any q ->
  (forall l, li_get I st (l_index l) = Val (Some l) -> query_match any q l -> separable I st (l_index l)) ->
  one_match any I st q.
Proof.
  destruct q as [|a [|s [|t [|? ?]]]]; cbn [pair_query null_query query_match]; try tauto.
  intros (-> & SA & TA) NQ D [i s1 t1] [j s2 t2] G1 M1 G2 M2. pose proof (D _ G1 M1) as Z. cbn [l_index l_source l_target] in *.
  unfold part_match in *. destruct M1 as (_ & [?|E1] & [?|E2]), M2 as (_ & [?|E3] & [?|E4]); try contradiction.
  cbn in E1, E2, E3, E4. subst s1 t1 s2 t2.
  unfold separable, is_link in Z. destruct Z as [Z|Z].
  - rewrite G1 in Z. injection Z as -> ->. tauto.
  - now rewrite (Z j s t G1 G2).
Qed.
Lemma distinct_one_match any {S} (I : LinksI S) st q : pair_query any q -> ~ null_query any q ->
  distinct_pairs I st -> one_match any I st q.
Proof. intros P Q D. apply separable_one_match; auto. intros. now apply distinct_separable. Qed.

(** The call returns (no panic, no undefined behaviour, no endless loop). *)
Definition returns {A} (o : out A) : Prop := exists v, o = Val v.

(** Histories of an implementation.  [start] are the newly opened stores, [reopen]
    relates a store to the result of opening its memory again, [okU]/[okD] restrict the
    update and delete calls a client makes.  The list records the deleted indices, most
    recent first. *)
Section Hist.
  Context {S : Type}.
  Variable I : LinksI S.
  Variable start : S -> Prop.
  Variable reopen : S -> S -> Prop.
  Variable okU : S -> N -> N -> N -> Prop.
  Variable okD : S -> N -> Prop.

  Inductive hist : S -> list N -> Prop :=
  | hist_start st : start st -> hist st []
  | hist_create st d H (h : whandler H) q x st' x' r :
      hist st d -> li_create I H h q st x = Val (st', x', r) -> hist st' d
  | hist_update st d H (h : whandler H) q ch i s t x st' x' r :
      hist st d -> qget q 0 = Val i -> qget ch 1 = Val s -> qget ch 2 = Val t -> okU st i s t ->
      li_update I H h q ch st x = Val (st', x', r) -> hist st' d
  | hist_delete st d H (h : whandler H) q i x st' x' f :
      hist st d -> qget q 0 = Val i -> okD st i ->
      li_delete I H h q st x = Val (st', x', Ok f) -> hist st' (i :: d)
  | hist_delete_err st d H (h : whandler H) q i x st' x' e :
      hist st d -> qget q 0 = Val i -> okD st i ->
      li_delete I H h q st x = Val (st', x', Err e) -> hist st' d
  | hist_reopen st d st' : hist st d -> reopen st st' -> hist st' d.

  (** The same with a restriction [okC] on the creations, relating the states before and
      after the call. *)
  Variable okC : S -> S -> Prop.

  Inductive histc : S -> list N -> Prop :=
  | histc_start st : start st -> histc st []
  | histc_create st d H (h : whandler H) q x st' x' r :
      histc st d -> li_create I H h q st x = Val (st', x', r) -> okC st st' -> histc st' d
  | histc_update st d H (h : whandler H) q ch i s t x st' x' r :
      histc st d -> qget q 0 = Val i -> qget ch 1 = Val s -> qget ch 2 = Val t -> okU st i s t ->
      li_update I H h q ch st x = Val (st', x', r) -> histc st' d
  | histc_delete st d H (h : whandler H) q i x st' x' f :
      histc st d -> qget q 0 = Val i -> okD st i ->
      li_delete I H h q st x = Val (st', x', Ok f) -> histc st' (i :: d)
  | histc_delete_err st d H (h : whandler H) q i x st' x' e :
      histc st d -> qget q 0 = Val i -> okD st i ->
      li_delete I H h q st x = Val (st', x', Err e) -> histc st' d
  | histc_reopen st d st' : histc st d -> reopen st st' -> histc st' d.
End Hist.

(** The user handler is called on the listed links in turn and never breaks. *)
Inductive continues {H B} (h : uread H B) : H -> list link -> H -> Prop :=
| cont_nil x : continues h x [] x
| cont_cons x l x1 L x2 : h x l = (x1, None) -> continues h x1 L x2 -> continues h x (l :: L) x2.

(** The result of visiting [L] one link after the other: either no call breaks and all
    are made, or the calls stop at the first break. *)
Definition visit_result {H B} (h : uread H B) (x : H) (L : list link) (r : H * option B) : Prop :=
  (exists x', continues h x L x' /\ r = (x', None)) \/
  (exists pre l post x1 x2 b, L = pre ++ l :: post /\ continues h x pre x1 /\
     h x1 l = (x2, Some b) /\ r = (x2, Some b)).
