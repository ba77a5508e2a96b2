(** Proofs of the claims about sequences written into a store and read back, the functions of
    doublets/tests/seq.rs (C84). *)
From Coq Require Import NArith List Bool Lia Permutation Sorted.
From Verif Require Import Base Trees Lists TreeInv Spec Iface UnitModel UnitInv UnitOps UnitLinks LinkModel SplitModel Forest
  SplitInv SplitReads SplitOps SplitWrites SplitLinks Doublets DoubletsOK Obs Hist Claims UnitHist TreeImpl SplitHist UnitClaims SplitLife.
Import ListNotations.
Open Scope N_scope.

Section Model.
  Context {S : Type}.
  Variables (cf : cfg) (I : LinksI S).

  (** the first loop of write_seq, tests/seq.rs:15-18 *)
  Fixpoint seq_aliases (l : list N) (st : S) : out (S * result (list N)) :=
    match l with
    | [] => Val (st, Ok [])
    | id :: l' =>
        let* (st1, r1) := d_create I st in
        match r1 with
        | Err e => Val (st1, Err e)
        | Ok k =>
            let* (st2, r2) := d_update I k k id st1 in
            match r2 with
            | Err e => Val (st2, Err e)
            | Ok k' =>
                let* (st3, r3) := seq_aliases l' st2 in
                Val (st3, rmap (fun al => k' :: al) r3)
            end
        end
    end.
  (** the second loop, tests/seq.rs:20-24 *)
  Fixpoint seq_chain (al : list N) (st : S) : out (S * result unit) :=
    match al with
    | x :: ((y :: _) as al') =>
        let* (st1, r1) := d_create_link I x y st in
        match r1 with
        | Err e => Val (st1, Err e)
        | Ok _ => seq_chain al' st1
        end
    | _ => Val (st, Ok tt)
    end.
  (** write_seq, tests/seq.rs:12-26; the vector of aliases is never empty *)
  Definition seq_write (l : list N) (st : S) : out (S * result N) :=
    let* (st1, r1) := d_create I st in
    match r1 with
    | Err e => Val (st1, Err e)
    | Ok root =>
        let* (st2, r2) := seq_aliases l st1 in
        match r2 with
        | Err e => Val (st2, Err e)
        | Ok al =>
            let* (st3, r3) := seq_chain (root :: al) st2 in
            Val (st3, rmap (fun _ => root) r3)
        end
    end.
  (** custom_single, tests/seq.rs:28-45 *)
  Definition seq_single (st : S) (q : list N) : out (option link) :=
    let* (r, _) := d_each_by (B := unit) I (fun r l =>
      if (match r with None => true | Some _ => false end) && negb (l_index l =? l_source l) then (Some l, None)
      else if negb (l_index l =? l_source l) then (None, Some tt) else (r, None)) q st None in
    Val r.
  (** read_seq, tests/seq.rs:47-57 *)
  Fixpoint seq_read (fuel : nat) (st : S) (cur : N) : out (result (list N)) :=
    match fuel with
    | O => Diverge
    | Datatypes.S f =>
        let* o := seq_single st [c_any cf; cur; c_any cf] in
        match o with
        | None => Val (Ok [])
        | Some lk =>
            let* r := d_try_get_link I st (l_target lk) in
            match r with
            | Err e => Val (Err e)
            | Ok al =>
                let* r2 := seq_read f st (l_target lk) in
                Val (rmap (fun l => l_target al :: l) r2)
            end
        end
    end.
  (** the writing loop of the test, tests/seq.rs:99-101 *)
  Fixpoint seq_write_all (ls : list (list N)) (st : S) : out (S * result (list N)) :=
    match ls with
    | [] => Val (st, Ok [])
    | l :: ls' =>
        let* (st1, r1) := seq_write l st in
        match r1 with
        | Err e => Val (st1, Err e)
        | Ok root =>
            let* (st2, r2) := seq_write_all ls' st1 in
            Val (st2, rmap (fun rs => root :: rs) r2)
        end
    end.
End Model.

Section Gen.
  Context {S : Type}.
  Variables (cf : cfg) (I : LinksI S).
  Variable Good : S -> (N -> Prop) -> (N -> Prop) -> Prop.
  Variable tok : N -> Prop.
  Hypothesis TOK : forall t, t <> 0 -> tok t.
  Hypothesis GD : forall st Ms Mt, Good st Ms Mt -> forall j, linked I st j -> j <> 0.
  Hypothesis GC : forall st Ms Mt, Good st Ms Mt ->
    (exists st' e, Good st' Ms Mt /\ same_links I st st' /\ (e = LimitReached (c_iend cf) \/ e = AllocFailed) /\
       fails_with (fun H h x => li_create I H h [] st x) st' e) \/
    (exists st' i Ms' Mt', creates cf I st st' i /\ Good st' Ms' Mt' /\
       (forall j, Ms' j <-> Ms j \/ exists t, is_link I st j i t) /\ ~ Ms' i /\ ~ Mt' i /\
       calls_once (fun H h x => li_create I H h [] st x) st' nothing (mkLink i 0 0)).
  Hypothesis GU : forall st Ms Mt i s t, Good st Ms Mt -> is_link I st i 0 0 -> ~ Ms i -> ~ Mt i ->
    s = i \/ linked I st s -> tok t ->
    exists st' Ms' Mt' b, Good st' Ms' Mt' /\ (forall j, Ms' j <-> Ms j) /\ is_link I st' i s t /\ frame I st st' i /\
      calls_once (fun H h x => li_update I H h [i] [i; s; t] st x) st' b (mkLink i s t).
  Hypothesis GQ : forall st Ms Mt v, Good st Ms Mt -> linked I st v ->
    exists L, NoDup L /\
      (forall l, In l L <-> is_link I st (l_index l) (l_source l) (l_target l) /\ l_source l = v /\ ~ Ms (l_index l)) /\
      (forall H (h : rhandler H) x, li_each I H h [c_any cf; v; c_any cf] st x = Val (run_handler h L x)).

  Definition refused (e : error) : Prop := e = LimitReached (c_iend cf) \/ e = AllocFailed.

  (** ** One link more *)
  Definition plus (st st' : S) (Ms Ms' : N -> Prop) (i s t : N) : Prop :=
    no_link I st i /\ is_link I st' i s t /\ frame I st st' i /\
    (forall j, Ms' j <-> Ms j \/ exists t, is_link I st j i t) /\ ~ Ms' i.

  Lemma q_create st Ms Mt : Good st Ms Mt ->
    (exists st' e, Good st' Ms Mt /\ same_links I st st' /\ refused e /\ d_create I st = Val (st', Err e) /\
       forall s t, d_create_link I s t st = Val (st', Err e)) \/
    (exists st' i Ms' Mt', plus st st' Ms Ms' i 0 0 /\ Good st' Ms' Mt' /\ d_create I st = Val (st', Ok i) /\ i <> 0 /\
       forall s t, s = i \/ linked I st s -> tok t ->
         exists st2 Ms2 Mt2, plus st st2 Ms Ms2 i s t /\ Good st2 Ms2 Mt2 /\ d_update I i s t st' = Val (st2, Ok i) /\
           d_create_link I s t st = Val (st2, Ok i)).
  Proof.
    intros G. destruct (GC _ _ _ G) as [(st' & e & G' & SM & RE & F)|(st' & i & Ms' & Mt' & CR & G' & MS & NS & NT & F)].
    - left. exists st', e. split; auto. split; auto. split; auto. split; [now apply d_create_fail|].
      intros s t. unfold d_create_link, d_create_link_with, d_create_with, d_create_by_with.
      rewrite (wadapt_fail _ _ _ _ _ _ _ F). reflexivity.
    - right. exists st', i, Ms', Mt'. destruct CR as (IR & NI & LI & FR & _).
      split; [repeat split; auto; apply MS|]. split; auto. split; [now apply (d_create_once I st [] st' i 0 0)|]. split; [lia|].
      intros s t SS TT. destruct (GU st' Ms' Mt' i s t G' LI NS NT) as (st2 & Ms2 & Mt2 & b & G2 & M2 & L2 & F2 & C2); auto.
      { destruct SS as [->|(x & y & L)]; [now left|right]. exists x, y. unfold is_link in *. rewrite FR; auto.
        intros ->. unfold no_link in NI. congruence. }
      exists st2, Ms2, Mt2. split; [|split; auto; split].
      + split; auto. split; auto. split; [|split].
        * intros j J. rewrite F2 by auto. now apply FR.
        * intros j. rewrite M2. apply MS.
        * rewrite M2. exact NS.
      + unfold d_update, d_update_by, d_update_by_with. rewrite (wadapt_once _ _ _ _ _ _ _ _ C2). reflexivity.
      + unfold d_create_link, d_create_link_with, d_create_with, d_create_by_with.
        rewrite (wadapt_once _ _ _ _ _ _ _ _ F). cbn [obind fst snd fuse_call l_index].
        unfold d_update_with, d_update_by_with. rewrite (wadapt_once _ _ _ _ _ _ _ _ C2). reflexivity.
  Qed.

  (** ** Several links more *)
  Record grown (st0 : S) (M0 : N -> Prop) (st : S) (M : N -> Prop) (new : list link) : Prop := {
    gr_old : forall j s t, is_link I st0 j s t -> is_link I st j s t;
    gr_new : forall l, In l new -> is_link I st (l_index l) (l_source l) (l_target l);
    gr_only : forall j s t, is_link I st j s t -> is_link I st0 j s t \/ In (mkLink j s t) new;
    gr_fresh : forall l, In l new -> ~ linked I st0 (l_index l);
    gr_nodup : NoDup (map l_index new);
    gr_closed : forall l, In l new -> l_source l = 0 \/ In (l_source l) (map l_index new);
    gr_shown : forall l, In l new -> ~ M (l_index l);
    gr_M : forall j s t, is_link I st0 j s t -> (M j <-> M0 j \/ In s (map l_index new))
  }.
  Lemma is_no st i s t : is_link I st i s t -> no_link I st i -> False.
  Proof. unfold is_link, no_link. intros A B. rewrite A in B. discriminate. Qed.
  Lemma is_same st i s t s' t' : is_link I st i s t -> is_link I st i s' t' -> s = s' /\ t = t'.
  Proof. unfold is_link. intros A B. rewrite A in B. injection B as <- <-. auto. Qed.

  Lemma grown_nil st M : grown st M st M [].
  Proof. constructor; cbn; auto; try tauto; try constructor; tauto. Qed.
  Lemma grown_same st0 M0 st M st' new : grown st0 M0 st M new -> same_links I st st' -> grown st0 M0 st' M new.
  Proof.
    intros [A B C D E F G H] SM. assert (X : forall j s t, is_link I st' j s t <-> is_link I st j s t).
    { intros j s t. unfold is_link. now rewrite (SM j). }
    constructor; auto.
    - intros j s t K. apply X. auto.
    - intros l K. apply X. auto.
    - intros j s t K. apply X in K. auto.
  Qed.
  Lemma grown_plus st0 M0 st M st' M' new i s t : grown st0 M0 st M new -> plus st st' M M' i s t -> i <> 0 ->
    s = 0 \/ s = i \/ In s (map l_index new) -> grown st0 M0 st' M' (new ++ [mkLink i s t]).
  Proof.
    intros [A B C D E F G H] (NI & LI & FR & MM & NM) I0 SS.
    assert (OTH : forall j x y, is_link I st j x y -> is_link I st' j x y /\ j <> i).
    { intros j x y K. assert (j <> i) by (intros ->; eapply is_no; eauto). split; auto. unfold is_link in *. now rewrite FR. }
    assert (NIn : ~ In i (map l_index new)).
    { intros K. apply in_map_iff in K as (l & <- & K). eapply is_no; [apply B; eauto|auto]. }
    constructor.
    - intros j x y K. now apply OTH, A.
    - intros l K. apply in_app_iff in K as [K|[<-|[]]]; [|exact LI]. now apply OTH, B.
    - intros j x y K. rewrite in_app_iff. destruct (N.eq_dec j i) as [->|NE].
      + right. right. left. destruct (is_same _ _ _ _ _ _ K LI) as [-> ->]. reflexivity.
      + unfold is_link in K. rewrite FR in K by auto. destruct (C _ _ _ K); auto.
    - intros l K. apply in_app_iff in K as [K|[<-|[]]]; [now apply D|]. cbn [l_index].
      intros (x & y & K). eapply is_no; [exact (A _ _ _ K)|exact NI].
    - rewrite map_app. cbn [map l_index]. apply NoDup_app_intro; auto; [constructor; [intros []|constructor]|].
      intros x X [<-|[]]. auto.
    - intros l K. rewrite map_app, in_app_iff. cbn [map l_index In]. apply in_app_iff in K as [K|[<-|[]]].
      + destruct (F l K); auto.
      + cbn [l_source]. destruct SS as [->|[->|K]]; auto.
    - intros l K. apply in_app_iff in K as [K|[<-|[]]]; [|exact NM]. rewrite MM. intros [K2|(y & K2)]; [now apply (G l)|].
      destruct (is_same _ _ _ _ _ _ K2 (B l K)) as [E1 _]. destruct (F l K) as [K3|K3]; [congruence|]. rewrite <- E1 in K3. auto.
    - intros j x y K. rewrite MM, (H _ _ _ K), map_app, in_app_iff. cbn [map l_index In]. split.
      + intros [[K2|K2]|(z & K2)]; auto. destruct (is_same _ _ _ _ _ _ K2 (A _ _ _ K)) as [-> _]. auto.
      + intros [K2|[K2|[K2|[]]]]; auto. subst x. right. exists y. auto.
  Qed.

  (** ** Writing *)
  Definition alias_links (al l : list N) : list link := map (fun p => mkLink (fst p) (fst p) (snd p)) (combine al l).
  Fixpoint chain_links (al ch : list N) : list link :=
    match al, ch with
    | x :: ((y :: _) as al'), c :: ch' => mkLink c x y :: chain_links al' ch'
    | _, _ => []
    end.

  Lemma w_aliases st0 M0 : forall l st Ms Mt new, Good st Ms Mt -> grown st0 M0 st Ms new -> (forall v, In v l -> tok v) ->
    (exists st' e Ms' Mt' new', seq_aliases I l st = Val (st', Err e) /\ refused e /\ Good st' Ms' Mt' /\ grown st0 M0 st' Ms' new') \/
    (exists st' Ms' Mt' al, seq_aliases I l st = Val (st', Ok al) /\ Good st' Ms' Mt' /\ length al = length l /\
       grown st0 M0 st' Ms' (new ++ alias_links al l)).
  Proof.
    induction l as [|v l IH]; intros st Ms Mt new G GR TV; cbn [seq_aliases].
    - right. exists st, Ms, Mt, []. split; auto. split; auto. split; auto. cbn. now rewrite app_nil_r.
    - destruct (q_create st Ms Mt G) as [(st' & e & G' & SM & RE & E & _)|(st' & i & Ms' & Mt' & P & G' & E & I0 & NX)].
      + left. exists st', e, Ms, Mt, new. rewrite E. cbn [obind]. split; auto. split; auto. split; auto. eapply grown_same; eauto.
      + rewrite E. cbn [obind]. destruct (NX i v (or_introl eq_refl)) as (st2 & Ms2 & Mt2 & P2 & G2 & E2 & _); [apply TV; now left|].
        rewrite E2. cbn [obind].
        destruct (IH st2 Ms2 Mt2 (new ++ [mkLink i i v]) G2) as [(st3 & e & Ms3 & Mt3 & new' & E3 & RE & G3 & GR3)|(st3 & Ms3 & Mt3 & al & E3 & G3 & LE & GR3)].
        * eapply grown_plus; eauto.
        * intros x X. apply TV. now right.
        * left. exists st3, e, Ms3, Mt3, new'. rewrite E3. cbn [obind rmap]. auto.
        * right. exists st3, Ms3, Mt3, (i :: al). rewrite E3. cbn [obind rmap]. split; auto. split; auto. split; [cbn; auto|].
          cbn [alias_links combine map fst snd]. rewrite <- app_assoc in GR3. exact GR3.
  Qed.

  Lemma w_chain st0 M0 : forall al st Ms Mt new, Good st Ms Mt -> grown st0 M0 st Ms new ->
    (forall x, In x al -> x <> 0 /\ In x (map l_index new)) ->
    (exists st' e Ms' Mt' new', seq_chain I al st = Val (st', Err e) /\ refused e /\ Good st' Ms' Mt' /\ grown st0 M0 st' Ms' new') \/
    (exists st' Ms' Mt' ch, seq_chain I al st = Val (st', Ok tt) /\ Good st' Ms' Mt' /\ length al <= Datatypes.S (length ch) /\
       grown st0 M0 st' Ms' (new ++ chain_links al ch))%nat.
  Proof.
    induction al as [|x [|y al] IH]; intros st Ms Mt new G GR AL.
    - right. exists st, Ms, Mt, []. cbn. rewrite app_nil_r. split; [reflexivity|]. split; [exact G|]. split; [lia|exact GR].
    - right. exists st, Ms, Mt, []. cbn. rewrite app_nil_r. split; [reflexivity|]. split; [exact G|]. split; [lia|exact GR].
    - change (seq_chain I (x :: y :: al) st) with (let* (st1, r1) := d_create_link I x y st in
        match r1 with Err e => Val (st1, Err e) | Ok _ => seq_chain I (y :: al) st1 end).
      destruct (q_create st Ms Mt G) as [(st' & e & G' & SM & RE & _ & E)|(st' & i & Ms' & Mt' & P & G' & _ & I0 & NX)].
      + left. exists st', e, Ms, Mt, new. rewrite E. cbn [obind]. split; auto. split; auto. split; auto. eapply grown_same; eauto.
      + destruct (AL x (or_introl eq_refl)) as [X0 XI]. destruct (AL y (or_intror (or_introl eq_refl))) as [Y0 YI].
        destruct (NX x y) as (st2 & Ms2 & Mt2 & P2 & G2 & _ & E2); auto.
        { right. apply in_map_iff in XI as (l & <- & LI). exists (l_source l), (l_target l). exact (gr_new _ _ _ _ _ GR l LI). }
        rewrite E2. cbn [obind].
        destruct (IH st2 Ms2 Mt2 (new ++ [mkLink i x y]) G2) as [(st3 & e & Ms3 & Mt3 & new' & E3 & RE & G3 & GR3)|(st3 & Ms3 & Mt3 & ch & E3 & G3 & LE & GR3)].
        * eapply grown_plus; eauto.
        * intros z Z. destruct (AL z (or_intror Z)) as [Z0 ZI]. split; auto. rewrite map_app, in_app_iff. auto.
        * left. exists st3, e, Ms3, Mt3, new'. auto.
        * right. exists st3, Ms3, Mt3, (i :: ch). split; auto. split; auto. split; [cbn [length] in *; lia|].
          rewrite <- app_assoc in GR3. exact GR3.
  Qed.

  Definition seq_links (r : N) (al l ch : list N) : list link :=
    [mkLink r 0 0] ++ alias_links al l ++ chain_links (r :: al) ch.

  Lemma alias_index al l : length al = length l -> map l_index (alias_links al l) = al.
  Proof.
    revert l. induction al as [|a al IH]; intros [|v l] E; cbn in *; try discriminate; auto. f_equal. apply IH. now injection E.
  Qed.

  Lemma w_write l st Ms Mt : Good st Ms Mt -> (forall v, In v l -> tok v) ->
    (exists st' e Ms' Mt' new, seq_write I l st = Val (st', Err e) /\ refused e /\ Good st' Ms' Mt' /\ grown st Ms st' Ms' new) \/
    (exists st' Ms' Mt' r al ch, seq_write I l st = Val (st', Ok r) /\ Good st' Ms' Mt' /\ length al = length l /\
       (length l <= length ch)%nat /\ grown st Ms st' Ms' (seq_links r al l ch)).
  Proof.
    intros G TV. unfold seq_write.
    destruct (q_create st Ms Mt G) as [(st' & e & G' & SM & RE & E & _)|(st' & r & Ms' & Mt' & P & G' & E & I0 & _)]; rewrite E; cbn [obind].
    { left. exists st', e, Ms, Mt, []. split; auto. split; auto. split; auto. eapply grown_same; eauto. apply grown_nil. }
    assert (GR : grown st Ms st' Ms' [mkLink r 0 0]) by (apply (grown_plus st Ms st Ms st' Ms' []); auto; apply grown_nil).
    destruct (w_aliases st Ms l st' Ms' Mt' _ G' GR TV) as [(st2 & e & Ms2 & Mt2 & new & E2 & RE & G2 & GR2)|(st2 & Ms2 & Mt2 & al & E2 & G2 & LE & GR2)];
      rewrite E2; cbn [obind].
    { left. exists st2, e, Ms2, Mt2, new. auto. }
    destruct (w_chain st Ms (r :: al) st2 Ms2 Mt2 _ G2 GR2) as [(st3 & e & Ms3 & Mt3 & new & E3 & RE & G3 & GR3)|(st3 & Ms3 & Mt3 & ch & E3 & G3 & LC & GR3)].
    { intros x X. assert (XI : In x (map l_index ([mkLink r 0 0] ++ alias_links al l))).
      { rewrite map_app, alias_index by auto. exact X. }
      split; auto. apply in_map_iff in XI as (k & <- & K). apply (GD _ _ _ G2).
      exists (l_source k), (l_target k). exact (gr_new _ _ _ _ _ GR2 k K). }
    { left. exists st3, e, Ms3, Mt3, new. rewrite E3. auto. }
    right. exists st3, Ms3, Mt3, r, al, ch. rewrite E3. cbn [obind rmap]. split; auto. split; auto. split; auto.
    split; [cbn [length] in LC; lia|]. unfold seq_links. now rewrite app_assoc.
  Qed.

  (** ** Reading *)
  (** What is shown when reading from [cur] spells [l]. *)
  Fixpoint spells (st : S) (M : N -> Prop) (cur : N) (l : list N) : Prop :=
    linked I st cur /\
    match l with
    | [] => forall j t, is_link I st j cur t -> ~ M j -> j = cur
    | v :: l' => exists c n, is_link I st c cur n /\ c <> cur /\ ~ M c /\
        (forall j t, is_link I st j cur t -> ~ M j -> j = c \/ j = cur) /\
        is_link I st n n v /\ spells st M n l'
    end.

  Lemma single_run L : forall o,
    urun (B := unit) (fun r l =>
      if (match r with None => true | Some _ => false end) && negb (l_index l =? l_source l) then (Some l, None)
      else if negb (l_index l =? l_source l) then (None, Some tt) else (r, None)) L o =
    match o, filter (fun l => negb (l_index l =? l_source l)) L with
    | o, [] => (o, None)
    | None, [k] => (Some k, None)
    | _, _ => (None, Some tt)
    end.
  Proof.
    induction L as [|k L IH]; intros o; cbn [urun filter]; [destruct o; reflexivity|].
    destruct (l_index k =? l_source k); cbn [negb andb].
    - destruct o; cbn [andb]; rewrite IH; reflexivity.
    - destruct o; cbn [andb]; [destruct (filter _ L) as [|? [|? ?]]; reflexivity|]. rewrite IH.
      destruct (filter _ L) as [|? [|? ?]]; reflexivity.
  Qed.

  Lemma q_single st Ms Mt cur : Good st Ms Mt -> linked I st cur ->
    ((forall j t, is_link I st j cur t -> ~ Ms j -> j = cur) -> seq_single I st [c_any cf; cur; c_any cf] = Val None) /\
    (forall c n, is_link I st c cur n -> c <> cur -> ~ Ms c ->
       (forall j t, is_link I st j cur t -> ~ Ms j -> j = c \/ j = cur) ->
       seq_single I st [c_any cf; cur; c_any cf] = Val (Some (mkLink c cur n))).
  Proof.
    intros G LC. destruct (GQ _ _ _ _ G LC) as (L & ND & M & V).
    assert (E : seq_single I st [c_any cf; cur; c_any cf] =
      Val (match filter (fun l => negb (l_index l =? l_source l)) L with [k] => Some k | _ => None end)).
    { unfold seq_single, d_each_by. rewrite V, run_radapt. cbn [obind]. rewrite single_run.
      destruct (filter _ L) as [|? [|? ?]]; reflexivity. }
    rewrite E. set (F := filter _ L).
    assert (FI : forall l, In l F <-> is_link I st (l_index l) cur (l_target l) /\ l_source l = cur /\ ~ Ms (l_index l) /\ l_index l <> cur).
    { intros l. unfold F. rewrite filter_In, M, negb_true_iff, N.eqb_neq. split.
      - intros [(A1 & A2 & A3) A4]. rewrite A2 in A1, A4. auto.
      - intros (A1 & A2 & A3 & A4). rewrite A2. auto. }
    assert (FN : NoDup F) by now apply NoDup_filter.
    split.
    - intros NO. destruct F as [|k F']; auto. exfalso. destruct (proj1 (FI k) (or_introl eq_refl)) as (A1 & A2 & A3 & A4).
      apply A4. now apply (NO _ (l_target k)).
    - intros c n C1 C2 C3 UN. assert (ALL : forall l, In l F -> l = mkLink c cur n).
      { intros [i s t] K. apply FI in K. cbn [l_index l_source l_target] in K. destruct K as (A1 & A2 & A3 & A4).
        destruct (UN _ _ A1 A3) as [->|]; [|contradiction]. destruct (is_same _ _ _ _ _ _ A1 C1) as [_ ->]. now rewrite A2. }
      assert (IN : In (mkLink c cur n) F) by (apply FI; cbn; auto).
      destruct F as [|k1 [|k2 F']]; [destruct IN| |].
      + now rewrite (ALL k1 (or_introl eq_refl)).
      + exfalso. inversion FN as [|? ? N1 _]. apply N1. left.
        rewrite (ALL k1), (ALL k2); cbn; auto.
  Qed.

  Lemma q_read st Ms Mt : Good st Ms Mt -> forall l cur fuel, spells st Ms cur l -> (length l < fuel)%nat ->
    seq_read cf I fuel st cur = Val (Ok l).
  Proof.
    intros G. induction l as [|v l IH]; intros cur fuel [LC SP] F; (destruct fuel as [|fuel]; [lia|]); cbn [seq_read].
    - destruct (q_single st Ms Mt cur G LC) as [E _]. rewrite (E SP). reflexivity.
    - destruct SP as (c & n & C1 & C2 & C3 & C4 & C5 & C6). destruct (q_single st Ms Mt cur G LC) as [_ E].
      rewrite (E c n C1 C2 C3 C4). cbn [obind l_target]. unfold d_try_get_link. unfold is_link in C5. rewrite C5. cbn [obind l_target].
      rewrite (IH n fuel C6) by (cbn [length] in F; lia). reflexivity.
  Qed.

  (** What was written earlier stays readable. *)
  Lemma spells_grown st0 M0 st M new : grown st0 M0 st M new -> (forall j, linked I st0 j -> j <> 0) ->
    forall l cur, spells st0 M0 cur l -> spells st M cur l.
  Proof.
    intros [A B C D E F G H] NZ.
    assert (SRC : forall cur j t, linked I st0 cur -> is_link I st j cur t -> ~ M j -> is_link I st0 j cur t /\ ~ M0 j).
    { intros cur j t LC K NM. destruct (C _ _ _ K) as [K2|K2].
      - split; auto. intros M1. apply NM. apply (H _ _ _ K2). auto.
      - exfalso. destruct (F _ K2) as [K3|K3]; cbn in K3.
        + now apply (NZ cur).
        + apply in_map_iff in K3 as (x & X1 & X2). apply (D x X2). now rewrite X1. }
    assert (OLD : forall j s t, is_link I st0 j s t -> linked I st0 s -> ~ M0 j -> ~ M j).
    { intros j s t K LS NM K2. apply (H _ _ _ K) in K2 as [K2|K2]; [contradiction|].
      apply in_map_iff in K2 as (x & X1 & X2). apply (D x X2). now rewrite X1. }
    induction l as [|v l IH]; intros cur [LC SP]; (split; [destruct LC as (x & y & LC'); exists x, y; auto|]).
    - intros j t K NM. destruct (SRC _ _ _ LC K NM). eauto.
    - destruct SP as (c & n & C1 & C2 & C3 & C4 & C5 & C6). exists c, n. split; auto. split; auto.
      split; [eapply OLD; eauto|]. split; [|split; auto].
      intros j t K NM. destruct (SRC _ _ _ LC K NM). eauto.
  Qed.

  Lemma skipn_cons (w : N) : forall n l rest, skipn n l = w :: rest -> skipn (Datatypes.S n) l = rest.
  Proof.
    induction n as [|n IH]; intros [|x l] rest E; cbn in *; try discriminate; [now injection E|]. apply (IH l rest E).
  Qed.
  Lemma chain_in al : forall ch k, In k (chain_links al ch) ->
    exists n, nth_error al n = Some (l_source k) /\ nth_error al (Datatypes.S n) = Some (l_target k) /\ nth_error ch n = Some (l_index k).
  Proof.
    induction al as [|x [|y al] IH]; intros ch k K; try (destruct ch; destruct K; fail).
    destruct ch as [|c ch]; [destruct K|]. destruct K as [<-|K]; [exists O; auto|].
    destruct (IH ch k K) as (n & N1 & N2 & N3). exists (Datatypes.S n). auto.
  Qed.
  Lemma chain_at al : forall ch n x y c, nth_error al n = Some x -> nth_error al (Datatypes.S n) = Some y -> nth_error ch n = Some c ->
    In (mkLink c x y) (chain_links al ch).
  Proof.
    induction al as [|a [|b al] IH]; intros ch n x y c A1 A2 A3.
    - destruct n; discriminate.
    - destruct n as [|[|n]]; discriminate.
    - destruct ch as [|d ch]; [destruct n; discriminate|]. destruct n as [|n].
      + cbn in A1, A2, A3. injection A1 as <-. injection A2 as <-. injection A3 as <-. now left.
      + right. eapply IH; eauto.
  Qed.
  Lemma alias_in al l k : In k (alias_links al l) -> exists n, nth_error al n = Some (l_index k) /\ l_source k = l_index k /\ nth_error l n = Some (l_target k).
  Proof.
    intros K. apply in_map_iff in K as ([a v] & <- & K). cbn. revert l K. induction al as [|x al IH]; intros [|w l] K; try destruct K.
    - injection H as -> ->. exists O. auto.
    - destruct (IH l H) as (n & N1 & N2 & N3). exists (Datatypes.S n). auto.
  Qed.
  Lemma alias_at al : forall l n a v, nth_error al n = Some a -> nth_error l n = Some v -> In (mkLink a a v) (alias_links al l).
  Proof.
    induction al as [|x al IH]; intros [|w l] [|n] a v A1 A2; try discriminate; cbn in A1, A2.
    - injection A1 as <-. injection A2 as <-. now left.
    - right. eapply IH; eauto.
  Qed.

  Lemma w_spells st0 M0 st M r al l ch : grown st0 M0 st M (seq_links r al l ch) -> length al = length l -> (length l <= length ch)%nat ->
    (forall j, linked I st j -> j <> 0) -> spells st M r l.
  Proof.
    intros [A B C D E F G H] LA LC NZ.
    assert (IX : map l_index (seq_links r al l ch) = (r :: al) ++ map l_index (chain_links (r :: al) ch)).
    { unfold seq_links. rewrite !map_app, alias_index by auto. reflexivity. }
    rewrite IX in E. apply NoDup_app_inv in E as (NDal & _ & DJ).
    assert (CH : forall k, In k (chain_links (r :: al) ch) -> ~ In (l_index k) (r :: al)).
    { intros k K K2. eapply DJ; eauto. now apply in_map. }
    assert (LK : forall x, In x (r :: al) -> linked I st x).
    { intros x X. assert (K : In x (map l_index (seq_links r al l ch))) by (rewrite IX; apply in_app_iff; auto).
      apply in_map_iff in K as (k & <- & K). exists (l_source k), (l_target k). exact (B k K). }
    assert (SRC : forall n cur j t, nth_error (r :: al) n = Some cur -> is_link I st j cur t -> ~ M j ->
      j = cur \/ (nth_error ch n = Some j /\ nth_error al n = Some t)).
    { intros n cur j t NC K NM. pose proof (nth_error_In _ _ NC) as CI. destruct (C _ _ _ K) as [K2|K2].
      - exfalso. apply NM. apply (H _ _ _ K2). right. rewrite IX. apply in_app_iff. now left.
      - unfold seq_links in K2. apply in_app_iff in K2 as [[K2|[]]|K2].
        + injection K2 as <- <- <-. exfalso. now apply (NZ 0); [apply LK|].
        + apply in_app_iff in K2 as [K2|K2].
          * apply alias_in in K2 as (n' & N1 & N2 & N3). cbn in N2. now left.
          * apply chain_in in K2 as (n' & N1 & N2 & N3). cbn [l_source l_target l_index] in *.
            assert (n' = n) as ->; [|now right].
            apply (proj1 (NoDup_nth_error (r :: al)) NDal); [|congruence]. apply nth_error_Some. congruence. }
    assert (KEY : forall rest n cur, nth_error (r :: al) n = Some cur -> skipn n l = rest -> (n <= length l)%nat -> spells st M cur rest).
    { induction rest as [|w rest IH]; intros n cur NC SK NL; (split; [apply LK; eapply nth_error_In; eauto|]).
      - intros j t K NM. destruct (SRC n cur j t NC K NM) as [|[_ K2]]; auto. exfalso.
        assert (n < length al)%nat by (apply nth_error_Some; congruence).
        assert (length (skipn n l) = 0)%nat by now rewrite SK. rewrite skipn_length in H1. lia.
      - assert (LN : (n < length l)%nat). { assert (X : length (skipn n l) = length (w :: rest)) by now rewrite SK. rewrite skipn_length in X. cbn in X. lia. }
        destruct (nth_error al n) as [y|] eqn:NY; [|apply nth_error_None in NY; lia].
        destruct (nth_error ch n) as [c|] eqn:NH; [|apply nth_error_None in NH; lia].
        assert (NW : nth_error l n = Some w). { rewrite <- (firstn_skipn n l), SK, nth_error_app2; rewrite firstn_length_le by lia; [|lia]. now rewrite PeanoNat.Nat.sub_diag. }
        assert (CI : In (mkLink c cur y) (chain_links (r :: al) ch)) by (eapply chain_at; eauto).
        assert (CN : In (mkLink c cur y) (seq_links r al l ch)) by (unfold seq_links; rewrite !in_app_iff; auto).
        exists c, y. split; [exact (B _ CN)|]. split; [|split; [exact (G _ CN)|split; [|split]]].
        + intros ->. apply (CH _ CI). exact (nth_error_In _ _ NC).
        + intros j t K NM. destruct (SRC n cur j t NC K NM) as [|[K2 _]]; auto. left. congruence.
        + assert (AN : In (mkLink y y w) (seq_links r al l ch)).
          { unfold seq_links. rewrite !in_app_iff. right. left. eapply alias_at; eauto. }
          exact (B _ AN).
        + apply (IH (Datatypes.S n)); [exact NY| |lia].
          exact (skipn_cons _ _ _ _ SK). }
    apply (KEY l 0%nat r); auto; lia.
  Qed.

  Lemma grown_nz st0 M0 st M new Ms Mt : Good st Ms Mt -> grown st0 M0 st M new -> forall j, linked I st0 j -> j <> 0.
  Proof. intros G GR j (s & t & K). apply (GD _ _ _ G). exists s, t. exact (gr_old _ _ _ _ _ GR _ _ _ K). Qed.

  (** ** The claims, for any store that keeps to the hypotheses *)
  Lemma w_all : forall ls st Ms Mt, Good st Ms Mt -> (forall l v, In l ls -> In v l -> tok v) ->
    exists st' Ms' Mt' r, seq_write_all I ls st = Val (st', r) /\ Good st' Ms' Mt' /\
      (forall j s t, is_link I st j s t -> is_link I st' j s t) /\
      (forall cur l, spells st Ms cur l -> spells st' Ms' cur l) /\
      match r with
      | Err e => refused e
      | Ok rs => length rs = length ls /\
          forall n r0 l, nth_error rs n = Some r0 -> nth_error ls n = Some l -> ~ linked I st r0 /\ spells st' Ms' r0 l
      end.
  Proof.
    induction ls as [|l ls IH]; intros st Ms Mt G TV; cbn [seq_write_all].
    - exists st, Ms, Mt, (Ok []). split; [reflexivity|]. split; [exact G|]. split; [auto|]. split; [auto|]. split; [reflexivity|].
      intros [|n] r0 l N1; discriminate N1.
    - destruct (w_write l st Ms Mt G) as [(st' & e & Ms' & Mt' & new & E & RE & G' & GR)|(st' & Ms' & Mt' & r & al & ch & E & G' & LA & LC & GR)].
      { intros v V. eapply TV; eauto. now left. }
      + rewrite E. cbn [obind]. exists st', Ms', Mt', (Err e). split; auto. split; auto. split; [apply GR|]. split; auto.
        intros cur l0. apply (spells_grown _ _ _ _ _ GR). exact (grown_nz _ _ _ _ _ _ _ G' GR).
      + rewrite E. cbn [obind]. destruct (IH st' Ms' Mt' G') as (st2 & Ms2 & Mt2 & r2 & E2 & G2 & OLD & SP & RS).
        { intros l0 v L0 V. eapply TV; eauto. now right. }
        rewrite E2. cbn [obind]. exists st2, Ms2, Mt2, (rmap (fun rs => r :: rs) r2). split; auto. split; auto.
        split; [intros j s t K; apply OLD, (gr_old _ _ _ _ _ GR), K|]. split.
        { intros cur l0 K. apply SP. revert K. apply (spells_grown _ _ _ _ _ GR). exact (grown_nz _ _ _ _ _ _ _ G' GR). }
        destruct r2 as [rs|e]; cbn [rmap]; auto. destruct RS as [RL RS]. split; [cbn; auto|].
        intros [|n] r0 l0 N1 N2; cbn in N1, N2.
        * injection N1 as <-. injection N2 as <-. split.
          -- apply (gr_fresh _ _ _ _ _ GR (mkLink r 0 0)). unfold seq_links. apply in_app_iff. left. now left.
          -- apply SP. eapply w_spells; eauto.
        * destruct (RS n r0 l0 N1 N2) as [X1 X2]. split; auto. intros (s & t & K). apply X1. exists s, t. exact (gr_old _ _ _ _ _ GR _ _ _ K).
  Qed.
End Gen.

(** Each link has a link as its source, or none. *)
Definition sources_linked {S} (I : LinksI S) (st : S) : Prop := forall i s t, is_link I st i s t -> s = 0 \/ linked I st s.

(** ** The two stores *)
Section Inst.
  Variables (cf : cfg) (tops : tree_ops) (lops : list_ops).
  Hypothesis ENV : unit_env cf tops lops.
  Hypothesis RM : cfg_room cf.
  Notation U := (unit_links cf tops lops).
  Notation SL := (split_links cf tops lops).

  Definition ugood (st : ust) (Ms Mt : N -> Prop) : Prop :=
    (exists d, u_hist cf tops lops st d) /\ sources_linked U st /\ (forall j, ~ Ms j) /\ (forall j, ~ Mt j).

  Lemma u_nz st Ms Mt : ugood st Ms Mt -> forall j, linked U st j -> 1 <= j <= c_iend cf.
  Proof.
    intros ((d & HH) & _) j L. uopen a K D. pose proof (uh_links_ok _ _ _ ENV) as OK. apply (ob_linked cf _ _ _ OK _ _ _ K) in L.
    destruct (a_map a j) as [[s t]|] eqn:E; [|contradiction]. apply (awf_some _ _ _ (lo_wf _ _ _ _ OK _ _ K)) in E.
    pose proof (lo_iend _ _ _ _ OK _ _ K). lia.
  Qed.
  Lemma u_gd st Ms Mt : ugood st Ms Mt -> forall j, linked U st j -> j <> 0.
  Proof. intros G j L. pose proof (u_nz _ _ _ G j L). lia. Qed.

  Lemma u_gc st Ms Mt : ugood st Ms Mt ->
    (exists st' e, ugood st' Ms Mt /\ same_links U st st' /\ (e = LimitReached (c_iend cf) \/ e = AllocFailed) /\
       fails_with (fun H h x => li_create U H h [] st x) st' e) \/
    (exists st' i Ms' Mt', creates cf U st st' i /\ ugood st' Ms' Mt' /\
       (forall j, Ms' j <-> Ms j \/ exists t, is_link U st j i t) /\ ~ Ms' i /\ ~ Mt' i /\
       calls_once (fun H h x => li_create U H h [] st x) st' nothing (mkLink i 0 0)).
  Proof.
    intros G. pose proof G as ((d & HH) & SR & NS & NT). destruct (uh_hist cf tops lops ENV st d HH) as (a & K & D).
    assert (K1 : uinv cf st a) by apply K.
    destruct (u_create_obs cf tops lops st d a [] ENV HH K1) as [(_ & _ & _ & P1 & P)|[[_ F]|[(_ & _ & _ & st2 & H2 & _ & SM & F)|(_ & st2 & H2 & C2 & C)]]].
    - exfalso. destruct (L_C11_no_panic cf tops lops st d ENV RM HH) as (_ & _ & _ & R & _).
      destruct (R unit cont [] tt) as [x E]. rewrite P in E. discriminate E.
    - left. exists st, (LimitReached (c_iend cf)). split; [exact G|]. split; [intros j; reflexivity|]. split; [now left|exact F].
    - left. exists st2, AllocFailed. split; [|split; [exact SM|split; [now right|exact F]]].
      split; [eauto|]. split; auto. intros i s t L. unfold is_link in L. rewrite SM in L. destruct (SR _ _ _ L) as [|(x & y & L2)]; auto.
      right. exists x, y. unfold is_link. now rewrite SM.
    - right. exists st2, (a_next a), Ms, Mt. split; [exact C2|].
      destruct C2 as (_ & NL & NW & FR & _).
      assert (UP : forall j, linked U st j -> linked U st2 j).
      { intros j (x & y & L). exists x, y. unfold is_link. rewrite FR; auto. intros ->. unfold is_link in L. unfold no_link in NL. rewrite L in NL. discriminate NL. }
      split; [|split; [|split; [auto|split; [auto|exact C]]]].
      + split; [eauto|]. split; auto. intros i s t L. destruct (N.eq_dec i (a_next a)) as [->|NE].
        * unfold is_link in L, NW. rewrite NW in L. injection L as <- _. now left.
        * unfold is_link in L. rewrite FR in L by auto. destruct (SR _ _ _ L) as [|L2]; auto.
      + intros j. split; [now left|]. intros [|(t & L)]; auto. exfalso. destruct (SR _ _ _ L) as [E|(x & y & L2)].
        * rewrite E in NW. apply (u_gd st2 Ms Mt) with (j := 0); auto; [|exists 0, 0; exact NW]. split; [eauto|]. split; auto.
          intros i s t0 L3. destruct (N.eq_dec i (a_next a)) as [->|NE].
          -- left. unfold is_link in L3. rewrite <- E in NW. unfold is_link in NW. rewrite NW in L3. now injection L3 as <- _.
          -- unfold is_link in L3. rewrite FR in L3 by auto. destruct (SR _ _ _ L3) as [|L4]; auto.
        * unfold is_link in L2. unfold no_link in NL. rewrite L2 in NL. discriminate NL.
  Qed.

  Lemma u_gu st Ms Mt i s t : ugood st Ms Mt -> is_link U st i 0 0 -> ~ Ms i -> ~ Mt i ->
    s = i \/ linked U st s -> True ->
    exists st' Ms' Mt' b, ugood st' Ms' Mt' /\ (forall j, Ms' j <-> Ms j) /\ is_link U st' i s t /\ frame U st st' i /\
      calls_once (fun H h x => li_update U H h [i] [i; s; t] st x) st' b (mkLink i s t).
  Proof.
    intros ((d & HH) & SR & NS & NT) LI _ _ SI _.
    destruct (L_C01_update_roundtrip cf tops lops st d [i] [i; s; t] i s t ENV HH) as (st' & b & H' & C & L' & F); auto.
    { exists 0, 0. exact LI. } { left. exact LI. }
    exists st', Ms, Mt, b. split; [|split; [reflexivity|split; [exact L'|split; [exact F|]]]].
    - split; [eauto|]. split; auto.
      assert (UP : forall j, linked U st j -> linked U st' j).
      { intros j (x & y & L). destruct (N.eq_dec j i) as [->|NE]; [exists s, t; exact L'|]. exists x, y. unfold is_link. now rewrite F. }
      intros j x y L. destruct (N.eq_dec j i) as [->|NE].
      + unfold is_link in L, L'. rewrite L' in L. injection L as <- _. right. destruct SI as [->|SI]; [exists i, t; exact L'|auto].
      + unfold is_link in L. rewrite F in L by auto. destruct (SR _ _ _ L) as [|L2]; auto.
    - exact C.
  Qed.

  Lemma u_gq st Ms Mt v : ugood st Ms Mt -> linked U st v ->
    exists L, NoDup L /\
      (forall l, In l L <-> is_link U st (l_index l) (l_source l) (l_target l) /\ l_source l = v /\ ~ Ms (l_index l)) /\
      (forall H (h : rhandler H) x, li_each U H h [c_any cf; v; c_any cf] st x = Val (run_handler h L x)).
  Proof.
    intros G LV. pose proof (u_nz _ _ _ G v LV) as NZ. pose proof G as ((d & HH) & SR & NS & NT).
    pose proof (ok_iend _ (proj1 ENV)) as IE.
    destruct (L_C03_each_visits_matches cf tops lops st d [c_any cf; v; c_any cf] ENV HH) as (L & ND & M & V).
    - cbn. lia.
    - intros C. discriminate C.
    - cbn. intros (_ & [C|[C _]]); lia.
    - cbn. auto.
    - cbn. intros (_ & _ & C). congruence.
    - exists L. split; auto. split; [|exact V]. intros [i s t]. rewrite M. cbn [l_index l_source l_target query_match].
      split.
      + intros (A & _ & P & _). split; [exact A|]. split; [|apply NS]. destruct P as [P|P]; [lia|now symmetry].
      + intros (A & P & _). split; [exact A|]. split; [now left|]. split; [right; now symmetry|now left].
  Qed.

  (** the two-memory store *)
  Lemma s_nz st Ms Mt : slife cf tops lops st Ms Mt -> forall j, linked SL st j -> 1 <= j <= c_iend cf.
  Proof.
    intros HL j L. destruct (slife_inv cf tops lops ENV _ _ _ HL) as (a & sP & tP & K).
    apply (y_linked cf tops lops ENV _ _ _ _ _ _ _ K) in L. destruct (a_map a j) as [[s t]|] eqn:E; [|contradiction].
    apply (awf_some _ _ _ (xi_wf _ _ _ _ _ _ _ K)) in E. pose proof (sm_iend _ _ _ _ _ (xi_mem _ _ _ _ _ _ _ K)). lia.
  Qed.
  Lemma s_gd st Ms Mt : slife cf tops lops st Ms Mt -> forall j, linked SL st j -> j <> 0.
  Proof. intros G j L. pose proof (s_nz _ _ _ G j L). lia. Qed.
  Lemma s_gc st Ms Mt : slife cf tops lops st Ms Mt ->
    (exists st' e, slife cf tops lops st' Ms Mt /\ same_links SL st st' /\ (e = LimitReached (c_iend cf) \/ e = AllocFailed) /\
       fails_with (fun H h x => li_create SL H h [] st x) st' e) \/
    (exists st' i Ms' Mt', creates cf SL st st' i /\ slife cf tops lops st' Ms' Mt' /\
       (forall j, Ms' j <-> Ms j \/ exists t, is_link SL st j i t) /\ ~ Ms' i /\ ~ Mt' i /\
       calls_once (fun H h x => li_create SL H h [] st x) st' nothing (mkLink i 0 0)).
  Proof.
    intros G. destruct (L_C83_misfiled cf tops lops st Ms Mt ENV G) as (_ & MS & MT).
    destruct (L_C83_create cf tops lops st Ms Mt [] ENV RM G) as [[_ F]|[(_ & st2 & SM & G2 & F)|(st2 & i & C & G2 & F)]].
    - left. exists st, (LimitReached (c_iend cf)). split; [exact G|]. split; [intros j; reflexivity|]. split; [now left|exact F].
    - left. exists st2, AllocFailed. split; [exact G2|]. split; [exact SM|]. split; [now right|exact F].
    - right. exists st2, i. eexists. eexists. split; [exact C|]. split; [exact G2|]. split; [intros j; reflexivity|].
      destruct C as (_ & NL & _).
      assert (X : forall s t, ~ is_link SL st i s t). { intros s t L. unfold is_link in L. unfold no_link in NL. rewrite L in NL. discriminate NL. }
      split; [|split; [|exact F]].
      + intros [C|(t & C)]; [destruct (MS _ C) as (v & t & L & _); exact (X _ _ L)|exact (X _ _ C)].
      + intros [C|(t & C)]; [destruct (MT _ C) as (v & t & L & _); exact (X _ _ L)|exact (X _ _ C)].
  Qed.
  Lemma s_gu st Ms Mt i s t : slife cf tops lops st Ms Mt -> is_link SL st i 0 0 -> ~ Ms i -> ~ Mt i ->
    s = i \/ linked SL st s -> t <> 0 ->
    exists st' Ms' Mt' b, slife cf tops lops st' Ms' Mt' /\ (forall j, Ms' j <-> Ms j) /\ is_link SL st' i s t /\ frame SL st st' i /\
      calls_once (fun H h x => li_update SL H h [i] [i; s; t] st x) st' b (mkLink i s t).
  Proof.
    intros G LI NS NT _ T0.
    destruct (L_C83_update_partial cf tops lops st Ms Mt i 0 0 s t ENV G LI) as (st2 & L2 & F2 & G2 & C2).
    - split; [left; exact LI|]. auto.
    - intros C. contradiction.
    - exists st2. eexists. eexists. exists (mkLink i 0 0). split; [exact G2|]. split; [|split; [exact L2|split; [exact F2|exact C2]]].
      intros j. split; [intros [|(_ & _ & C)]; [auto|now destruct C]|now left].
  Qed.
  Lemma s_gq st Ms Mt v : slife cf tops lops st Ms Mt -> linked SL st v ->
    exists L, NoDup L /\
      (forall l, In l L <-> is_link SL st (l_index l) (l_source l) (l_target l) /\ l_source l = v /\ ~ Ms (l_index l)) /\
      (forall H (h : rhandler H) x, li_each SL H h [c_any cf; v; c_any cf] st x = Val (run_handler h L x)).
  Proof.
    intros G LV. pose proof (s_nz _ _ _ G v LV) as NZ. pose proof (ok_iend _ (proj1 ENV)) as IE.
    destruct (L_C83_by_source cf tops lops st Ms Mt v ENV G) as (L & ND & M & V & _); [lia|lia|].
    exists L. auto.
  Qed.
End Inst.

(** * C84 *)
(** Any number of sequences written into a two-memory store, one after another, are all read back,
    whatever the store held before.  No value may be 0. *)
Lemma L_C84_split_partial cf tops lops st Ms Mt ls :
  let SL := split_links cf tops lops in
  unit_env cf tops lops -> cfg_room cf -> slife cf tops lops st Ms Mt -> (forall l, In l ls -> ~ In 0 l) ->
  exists st' Ms' Mt' r, seq_write_all SL ls st = Val (st', r) /\ slife cf tops lops st' Ms' Mt' /\
    (forall j s t, is_link SL st j s t -> is_link SL st' j s t) /\
    match r with
    | Err e => e = LimitReached (c_iend cf) \/ e = AllocFailed
    | Ok rs => length rs = length ls /\
        forall n root l, nth_error rs n = Some root -> nth_error ls n = Some l ->
          ~ linked SL st root /\ linked SL st' root /\
          forall fuel, (length l < fuel)%nat -> seq_read cf SL fuel st' root = Val (Ok l)
    end.
Proof.
  intros SL ENV RM G TV. pose proof (s_gq cf tops lops ENV) as GQ.
  destruct (w_all cf SL (slife cf tops lops) (fun t => t <> 0) (fun t T => T) (s_gd cf tops lops ENV) (s_gc cf tops lops ENV RM)
    (s_gu cf tops lops ENV) ls st Ms Mt G) as (st' & Ms' & Mt' & r & E & G' & OLD & _ & RS).
  { intros l v L V ->. exact (TV l L V). }
  exists st', Ms', Mt', r. split; [exact E|]. split; [exact G'|]. split; [exact OLD|]. destruct r as [rs|e]; [|exact RS].
  destruct RS as [RL RS]. split; [exact RL|]. intros n root l N1 N2. destruct (RS n root l N1 N2) as [R1 R2].
  split; [exact R1|]. split; [destruct l; apply R2|]. intros fuel LF.
  exact (q_read cf SL (slife cf tops lops) GQ st' Ms' Mt' G' l root fuel R2 LF).
Qed.
(** In a one-memory store too, 0 or not, when no link has a source that is not a link. *)
Lemma L_C84_unit_partial cf tops lops st d ls :
  let U := unit_links cf tops lops in
  unit_env cf tops lops -> cfg_room cf -> u_hist cf tops lops st d -> sources_linked U st ->
  exists st' d' r, seq_write_all U ls st = Val (st', r) /\ u_hist cf tops lops st' d' /\ sources_linked U st' /\
    (forall j s t, is_link U st j s t -> is_link U st' j s t) /\
    match r with
    | Err e => e = LimitReached (c_iend cf) \/ e = AllocFailed
    | Ok rs => length rs = length ls /\
        forall n root l, nth_error rs n = Some root -> nth_error ls n = Some l ->
          ~ linked U st root /\ linked U st' root /\
          forall fuel, (length l < fuel)%nat -> seq_read cf U fuel st' root = Val (Ok l)
    end.
Proof.
  intros U ENV RM HH SR. pose proof (u_gq cf tops lops ENV) as GQ.
  assert (G : ugood cf tops lops st (fun _ => False) (fun _ => False)). { split; [eauto|]. auto. }
  destruct (w_all cf U (ugood cf tops lops) (fun _ => True) (fun t _ => Logic.I) (u_gd cf tops lops ENV) (u_gc cf tops lops ENV RM)
    (u_gu cf tops lops ENV) ls st _ _ G) as (st' & Ms' & Mt' & r & E & G' & OLD & _ & RS); [auto|].
  pose proof G' as ((d' & H') & SR' & _).
  exists st', d', r. split; [exact E|]. split; [exact H'|]. split; [exact SR'|]. split; [exact OLD|]. destruct r as [rs|e]; [|exact RS].
  destruct RS as [RL RS]. split; [exact RL|]. intros n root l N1 N2. destruct (RS n root l N1 N2) as [R1 R2].
  split; [exact R1|]. split; [destruct l; apply R2|]. intros fuel LF.
  exact (q_read cf U (ugood cf tops lops) GQ st' Ms' Mt' G' l root fuel R2 LF).
Qed.

Definition ex_seqs : list (list N) := [[11; 7; 7]; []; [5]].
Definition written {S} (I : LinksI S) (ls : list (list N)) (st : S) : S :=
  match seq_write_all I ls st with Val (st', _) => st' | _ => st end.
(** The store of the first claim holds a misfiled link, that of the second some links and a hole. *)
Lemma L_C84_nonvacuous :
  unit_env ex_cf ref_tree_ops ref_list_ops /\ cfg_room ex_cf /\
  (slife ex_cf ref_tree_ops ref_list_ops ex_mis one one /\ (forall l, In l ex_seqs -> ~ In 0 l) /\
   exists st', seq_write_all ex_S ex_seqs ex_mis = Val (st', Ok [4; 11; 12]) /\
     seq_read ex_cf ex_S 4 st' 4 = Val (Ok [11; 7; 7]) /\ seq_read ex_cf ex_S 4 st' 11 = Val (Ok []) /\
     seq_read ex_cf ex_S 4 st' 12 = Val (Ok [5])) /\
  exists st d, u_hist ex_cf ref_tree_ops ref_list_ops st d /\ sources_linked ex_U st /\
   exists st', seq_write_all ex_U [[0; 3]; [5]] st = Val (st', Ok [1; 8]) /\
     seq_read ex_cf ex_U 3 st' 1 = Val (Ok [0; 3]) /\ seq_read ex_cf ex_U 2 st' 8 = Val (Ok [5]).
Proof.
  split; [exact ex_env|]. split; [exact ex_cf_room|]. split.
  - split; [exact ex_mis_life|]. split.
    + intros l [<-|[<-|[<-|[]]]] C; cbn in C; repeat (destruct C as [C|C]; [discriminate C|]); exact C.
    + exists (written ex_S ex_seqs ex_mis). split; [vm_compute; reflexivity|]. split; [vm_compute; reflexivity|].
      split; vm_compute; reflexivity.
  - pose (l := [Cr; Cr; Cr; Up 3 2 3; De 1]). destruct (ex_reach l) as (d & HH & K); [vm_compute; reflexivity..|].
    exists (ex_st l), d. split; [exact HH|]. split.
    + assert (G : forall i, li_get ex_U (ex_st l) i = Val (olink i (a_map (arun a_empty l) i))).
      { intros i. exact (lo_get _ _ _ _ (e_ok _ _ _ ex_env) _ _ i K). }
      intros i s t L. unfold is_link in L. rewrite G in L.
      assert (AM : forall i, a_map (arun a_empty l) i = if i =? 3 then Some (2, 3) else if i =? 2 then Some (0, 0) else None).
      { intros j. cbn. unfold upd. destruct (N.eqb_spec j 3) as [->|]; [reflexivity|]. destruct (N.eqb_spec j 2) as [->|]; [reflexivity|].
        destruct (N.eqb_spec j 1) as [->|]; reflexivity. }
      rewrite AM in L. destruct (i =? 3).
      * injection L as <- _. right. exists 0, 0. vm_compute. reflexivity.
      * destruct (i =? 2); [|discriminate L]. injection L as <- _. now left.
    + exists (written ex_U [[0; 3]; [5]] (ex_st l)). split; [vm_compute; reflexivity|]. split; vm_compute; reflexivity.
Qed.

(** A two-memory store: a sequence with a 0 in it is written but cannot be read. *)
Lemma L_C84_split_refuted :
  exists st d st', s_hist ex_cf ref_tree_ops ref_list_ops st d /\
    seq_write_all ex_S [[0]] st = Val (st', Ok [1]) /\
    forall fuel, (1 < fuel)%nat -> seq_read ex_cf ex_S fuel st' 1 = Val (Err (NotExists 2)).
Proof.
  destruct (ex_sreach []) as (d & HH & _); [vm_compute; reflexivity..|].
  exists (ex_sst []), d, (written ex_S [[0]] (ex_sst [])). split; [exact HH|]. split; [vm_compute; reflexivity|].
  intros [|[|f]] LF; [lia|lia|]. cbn [seq_read].
  assert (E1 : seq_single ex_S (written ex_S [[0]] (ex_sst [])) [c_any ex_cf; 1; c_any ex_cf] = Val (Some (mkLink 3 1 2))) by (vm_compute; reflexivity).
  rewrite E1. cbn [obind l_target].
  assert (E2 : d_try_get_link ex_S (written ex_S [[0]] (ex_sst [])) 2 = Val (Err (NotExists 2))) by (vm_compute; reflexivity).
  rewrite E2. reflexivity.
Qed.
(** A one-memory store with a link 1: 3 -> 3: reading the sequence written next never ends. *)
Lemma L_C84_unit_refuted :
  exists st d st', u_hist ex_cf ref_tree_ops ref_list_ops st d /\ is_link ex_U st 1 3 3 /\ no_link ex_U st 3 /\
    seq_write_all ex_U [[7]] st = Val (st', Ok [2]) /\
    forall fuel, seq_read ex_cf ex_U fuel st' 2 = Diverge.
Proof.
  pose (l := [Cr; Up 1 3 3]). destruct (ex_reach l) as (d & HH & _); [vm_compute; reflexivity..|].
  exists (ex_st l), d. pose (w := written ex_U [[7]] (ex_st l)). exists w. split; [exact HH|].
  split; [vm_compute; reflexivity|]. split; [vm_compute; reflexivity|]. split; [vm_compute; reflexivity|].
  assert (E2 : seq_single ex_U w [c_any ex_cf; 2; c_any ex_cf] = Val (Some (mkLink 4 2 3))) by (vm_compute; reflexivity).
  assert (E3 : seq_single ex_U w [c_any ex_cf; 3; c_any ex_cf] = Val (Some (mkLink 1 3 3))) by (vm_compute; reflexivity).
  assert (G3 : d_try_get_link ex_U w 3 = Val (Ok (mkLink 3 3 7))) by (vm_compute; reflexivity).
  clearbody w. clear HH.
  assert (LOOP : forall fuel, seq_read ex_cf ex_U fuel w 3 = Diverge).
  { induction fuel as [|f IH]; [reflexivity|]. cbn [seq_read]. rewrite E3. cbn [obind l_target]. rewrite G3. cbn [obind]. now rewrite IH. }
  intros [|f]; [reflexivity|]. cbn [seq_read]. rewrite E2. cbn [obind l_target]. rewrite G3. cbn [obind]. now rewrite LOOP.
Qed.
