(** Texts as the scripts of the repository (scripts/*.mjs) handle them: the parts of the
    ECMAScript library they use.  A text is a sequence of code units.  Regular expressions
    are sequences of items, since those of the scripts repeat single characters only; [mt] tries
    the ways to match in the order the standard prescribes and gives the first, as the pieces
    of text the items matched. *)
From Coq Require Import Ascii String NArith List Bool Lia.
Import ListNotations.
Open Scope N_scope.

Definition str := list N.
Fixpoint js (s : string) : str :=
  match s with EmptyString => [] | String c s' => N_of_ascii c :: js s' end.
Definition nl : str := [10].

(** ** Characters *)
(** LineTerminator *)
Definition line_end (c : N) : bool := (c =? 10) || (c =? 13) || (c =? 8232) || (c =? 8233).
(** [\s], and what [trim] removes: WhiteSpace and LineTerminator *)
Definition space (c : N) : bool :=
  ((9 <=? c) && (c <=? 13)) || (c =? 32) || (c =? 160) || (c =? 5760) || ((8192 <=? c) && (c <=? 8202)) ||
  (c =? 8232) || (c =? 8233) || (c =? 8239) || (c =? 8287) || (c =? 12288) || (c =? 65279).
(** [\d], [\w], [.] and [[\s\S]] *)
Definition digit (c : N) : bool := (48 <=? c) && (c <=? 57).
Definition word (c : N) : bool := digit c || ((65 <=? c) && (c <=? 90)) || ((97 <=? c) && (c <=? 122)) || (c =? 95).
Definition dot (c : N) : bool := negb (line_end c).
Definition anything (c : N) : bool := true.
(** any character but the quote *)
Definition no_quote (c : N) : bool := negb (c =? 34).

(** ** Searching in texts *)
(** [s] without [l] in front, as in startsWith *)
Fixpoint strip (l s : str) : option str :=
  match l with
  | [] => Some s
  | c :: l' => match s with
               | [] => None
               | c' :: s' => if c =? c' then strip l' s' else None
               end
  end.
Definition starts (l s : str) : bool := match strip l s with Some _ => true | None => false end.
Definition ends_with (l s : str) : bool := starts (rev l) (rev s).
(** the text before and after the first occurrence of [l] (indexOf, includes) *)
Fixpoint cut (l s : str) : option (str * str) :=
  match strip l s with
  | Some r => Some ([], r)
  | None => match s with
            | [] => None
            | c :: s' => match cut l s' with Some (b, a) => Some (c :: b, a) | None => None end
            end
  end.
(** split at line feeds, join *)
Fixpoint lines (s : str) : list str :=
  match s with
  | [] => [[]]
  | c :: s' => if c =? 10 then [] :: lines s'
               else match lines s' with l :: ls => (c :: l) :: ls | [] => [[c]] end
  end.
Fixpoint join (sep : str) (l : list str) : str :=
  match l with
  | [] => []
  | x :: l' => match l' with [] => x | _ => x ++ sep ++ join sep l' end
  end.
(** trim *)
Fixpoint skip (p : N -> bool) (s : str) : str :=
  match s with [] => [] | c :: s' => if p c then skip p s' else s end.
Definition trim (s : str) : str := rev (skip space (rev (skip space s))).
Definition empty (s : str) : bool := match s with [] => true | _ => false end.
Fixpoint same (a b : str) : bool :=
  match a, b with
  | [], [] => true
  | c :: a', d :: b' => (c =? d) && same a' b'
  | _, _ => false
  end.
(** the order of sort: by code units *)
Fixpoint leq (a b : str) : bool :=
  match a, b with
  | [], _ => true
  | _, [] => false
  | c :: a', d :: b' => (c <? d) || ((c =? d) && leq a' b')
  end.

(** ** Regular expressions *)
Inductive item :=
| Lit (l : str)          (** these characters *)
| Ch (p : N -> bool)     (** one character of the class *)
| Many (p : N -> bool)   (** [p*] *)
| Few (p : N -> bool)    (** [p*?] *)
| Bol                    (** [^] with the flag m *)
| Bos                    (** [^] *)
| Eos                    (** [$] *)
| Ahead (l : str).       (** [(?=l|$)] *)
Definition lastc (prev : option N) (p : str) : option N := fold_left (fun _ c => Some c) p prev.
Definition at_line (prev : option N) : bool := match prev with None => true | Some c => line_end c end.
(** a further piece, or a further character of the first piece *)
Definition piece (p : str) (m : option (list str * str)) : option (list str * str) :=
  match m with Some (ps, r) => Some (p :: ps, r) | None => None end.
Definition longer (c : N) (m : option (list str * str)) : option (list str * str) :=
  match m with Some (p :: ps, r) => Some ((c :: p) :: ps, r) | _ => None end.
(** Match [r] at the start of [s], which follows the character [prev]. *)
Fixpoint mt (r : list item) (prev : option N) (s : str) {struct r} : option (list str * str) :=
  match r with
  | [] => Some ([], s)
  | Lit l :: r' => match strip l s with Some s' => piece l (mt r' (lastc prev l) s') | None => None end
  | Ch p :: r' => match s with
                  | c :: s' => if p c then piece [c] (mt r' (Some c) s') else None
                  | [] => None
                  end
  | Many p :: r' =>
      (fix many (prev : option N) (s : str) {struct s} : option (list str * str) :=
         match s with
         | c :: s' => match (if p c then longer c (many (Some c) s') else None) with
                      | Some m => Some m
                      | None => piece [] (mt r' prev s)
                      end
         | [] => piece [] (mt r' prev s)
         end) prev s
  | Few p :: r' =>
      (fix few (prev : option N) (s : str) {struct s} : option (list str * str) :=
         match piece [] (mt r' prev s) with
         | Some m => Some m
         | None => match s with
                   | c :: s' => if p c then longer c (few (Some c) s') else None
                   | [] => None
                   end
         end) prev s
  | Bol :: r' => if at_line prev then piece [] (mt r' prev s) else None
  | Bos :: r' => match prev with None => piece [] (mt r' prev s) | Some _ => None end
  | Eos :: r' => if empty s then piece [] (mt r' prev s) else None
  | Ahead l :: r' => if empty s || starts l s then piece [] (mt r' prev s) else None
  end.
(** The first match anywhere: the text before it, its pieces, the text after it. *)
Fixpoint find (r : list item) (prev : option N) (s : str) : option (str * list str * str) :=
  match mt r prev s with
  | Some (ps, rest) => Some ([], ps, rest)
  | None => match s with
            | [] => None
            | c :: s' => match find r (Some c) s' with
                         | Some (b, ps, rest) => Some (c :: b, ps, rest)
                         | None => None
                         end
            end
  end.
Definition exec (r : list item) (s : str) : option (str * list str * str) := find r None s.

(** ** replace *)
Definition num (d : N) : nat := N.to_nat (d - 48).
(** GetSubstitution: [m] is what was matched, [b] the text before it, [a] that after it. *)
Fixpoint subst (m b a : str) (caps : list str) (t : str) : str :=
  match t with
  | [] => []
  | c :: t1 =>
      if c =? 36 then
        match t1 with
        | [] => [c]
        | d :: t2 =>
            if d =? 36 then 36 :: subst m b a caps t2
            else if d =? 38 then m ++ subst m b a caps t2
            else if d =? 96 then b ++ subst m b a caps t2
            else if d =? 39 then a ++ subst m b a caps t2
            else if digit d then
              let one := match num d with
                         | O => c :: d :: subst m b a caps t2
                         | S k => match nth_error caps k with
                                  | Some x => x ++ subst m b a caps t2
                                  | None => c :: d :: subst m b a caps t2
                                  end
                         end in
              match t2 with
              | e :: t3 =>
                  if digit e then
                    let n := (10 * num d + num e)%nat in
                    match n with
                    | O => c :: d :: e :: subst m b a caps t3
                    | S k => match nth_error caps k with
                             | Some x => x ++ subst m b a caps t3
                             | None => one
                             end
                    end
                  else one
              | [] => one
              end
            else c :: subst m b a caps t1
        end
      else c :: subst m b a caps t1
  end.
(** replace with a text as pattern *)
Definition replace_text (p t s : str) : str :=
  match cut p s with Some (b, a) => b ++ subst p b a [] t ++ a | None => s end.

(** ** Numbers *)
(** The value of a sequence of digits. *)
Definition value (s : str) : N := fold_left (fun n c => 10 * n + (c - 48)) s 0.
(** A whole number below 2^53 in a template *)
Fixpoint dec_at (f : nat) (n : N) : str :=
  match f with
  | O => []
  | S f' => (if n <? 10 then [] else dec_at f' (n / 10)) ++ [48 + n mod 10]
  end.
Definition dec (n : N) : str := dec_at (S (N.to_nat (N.log2 n))) n.

(** ** Proofs *)
Lemma strip_spec l : forall s r, strip l s = Some r <-> s = l ++ r.
Proof.
  induction l as [|c l IH]; intros s r; cbn [strip app].
  - split; [congruence|intros ->; reflexivity].
  - destruct s as [|d s]; [split; discriminate|]. destruct (N.eqb_spec c d) as [->|NE].
    + rewrite IH. split; [intros ->; reflexivity|intros E; now injection E].
    + split; [discriminate|]. intros E. injection E as -> _. contradiction.
Qed.
Lemma strip_none l s : strip l s = None <-> forall r, s <> l ++ r.
Proof.
  destruct (strip l s) as [r|] eqn:E.
  - split; [discriminate|]. intros W. apply strip_spec in E. now apply W in E.
  - split; auto. intros _ r E2. apply strip_spec in E2. congruence.
Qed.
Lemma strip_app l r : strip l (l ++ r) = Some r.
Proof. now apply strip_spec. Qed.
Lemma starts_spec l s : starts l s = true <-> exists r, s = l ++ r.
Proof.
  unfold starts. destruct (strip l s) as [r|] eqn:E.
  - split; auto. intros _. exists r. now apply strip_spec.
  - split; [discriminate|]. intros [r R]. apply strip_spec in R. congruence.
Qed.
Lemma starts_app l s : starts l (l ++ s) = true.
Proof. apply starts_spec. eauto. Qed.

Lemma cut_some l : forall s b a, cut l s = Some (b, a) ->
  s = b ++ l ++ a /\ forall b1 x, b = b1 ++ x -> x <> [] -> strip l (x ++ l ++ a) = None.
Proof.
  induction s as [|c s IH]; intros b a; cbn [cut]; destruct (strip l _) as [r|] eqn:E.
  - intros X. injection X as <- <-. apply strip_spec in E. split; auto. intros b1 x E2. destruct b1, x; try discriminate. contradiction.
  - discriminate.
  - intros X. injection X as <- <-. apply strip_spec in E. split; auto. intros b1 x E2. destruct b1, x; try discriminate. contradiction.
  - destruct (cut l s) as [[b' a']|] eqn:E2; [|discriminate]. intros X. injection X as <- <-.
    destruct (IH _ _ eq_refl) as [-> F]. split; auto. intros [|c1 b1] x E3 NE; cbn in E3.
    + subst x. exact E.
    + injection E3 as -> ->. eauto.
Qed.
Lemma cut_none l : forall s, cut l s = None -> forall b a, s <> b ++ l ++ a.
Proof.
  induction s as [|c s IH]; cbn [cut]; destruct (strip l _) as [r|] eqn:E; try discriminate; intros C b a E2.
  - destruct b, l; discriminate.
  - destruct b as [|d b]; cbn in E2.
    + rewrite E2, strip_app in E. discriminate.
    + injection E2 as -> ->. destruct (cut l (b ++ l ++ a)) as [[b' a']|] eqn:E3; [discriminate|]. now apply (IH eq_refl b a).
Qed.
Lemma cut_first l b a : (forall b1 x, b = b1 ++ x -> x <> [] -> strip l (x ++ l ++ a) = None) -> cut l (b ++ l ++ a) = Some (b, a).
Proof.
  intros F. destruct (cut l (b ++ l ++ a)) as [[b' a']|] eqn:E.
  - apply cut_some in E as [E F']. 
    assert (X : forall b b' s s' : str, b ++ s = b' ++ s' -> exists x, (b' = b ++ x /\ s = x ++ s') \/ (b = b' ++ x /\ s' = x ++ s)).
    { clear. induction b as [|c b IH]; intros b' s s' E; cbn in E.
      - exists b'. auto.
      - destruct b' as [|d b']; cbn in E.
        + exists (c :: b). right. subst s'. auto.
        + injection E as -> E. destruct (IH _ _ _ E) as (x & [[-> ->]|[-> ->]]); exists x; auto. }
    destruct (X _ _ _ _ E) as (x & [[-> E2]|[-> E2]]).
    + destruct x as [|c x]; [cbn [app] in E2; apply app_inv_head in E2; subst; now rewrite app_nil_r|].
      pose proof (F' b (c :: x) eq_refl ltac:(discriminate)) as N. rewrite <- E2, strip_app in N. discriminate.
    + destruct x as [|c x]; [cbn [app] in E2; apply app_inv_head in E2; subst; now rewrite app_nil_r|].
      pose proof (F b' (c :: x) eq_refl ltac:(discriminate)) as N. rewrite <- E2, strip_app in N. discriminate.
  - exfalso. now apply (cut_none _ _ E b a).
Qed.

(** what it means for pieces to match *)
Definition okp (it : item) (prev : option N) (p s : str) : Prop :=
  match it with
  | Lit l => p = l
  | Ch q => exists c, p = [c] /\ q c = true
  | Many q | Few q => forallb q p = true
  | Bol => p = [] /\ at_line prev = true
  | Bos => p = [] /\ prev = None
  | Eos => p = [] /\ s = []
  | Ahead l => p = [] /\ (s = [] \/ exists t, s = l ++ t)
  end.
Fixpoint fits (r : list item) (prev : option N) (s : str) (ps : list str) (rest : str) : Prop :=
  match r, ps with
  | [], [] => rest = s
  | it :: r', p :: ps' => exists s', s = p ++ s' /\ okp it prev p s' /\ fits r' (lastc prev p) s' ps' rest
  | _, _ => False
  end.
Lemma lastc_app prev p q : lastc prev (p ++ q) = lastc (lastc prev p) q.
Proof. apply fold_left_app. Qed.
Lemma lastc_cons prev c q : lastc prev (c :: q) = lastc (Some c) q.
Proof. reflexivity. Qed.
Lemma piece_some p m ps rest : piece p m = Some (ps, rest) -> exists ps', ps = p :: ps' /\ m = Some (ps', rest).
Proof. destruct m as [[ps' r']|]; [|discriminate]. cbn. intros E. injection E as <- <-. eauto. Qed.
Lemma longer_some c m ps rest : longer c m = Some (ps, rest) -> exists p ps', ps = (c :: p) :: ps' /\ m = Some (p :: ps', rest).
Proof. destruct m as [[[|p ps'] r']|]; try discriminate. cbn. intros E. injection E as <- <-. eauto. Qed.
Lemma empty_spec s : empty s = true <-> s = [].
Proof. destruct s; split; auto; discriminate. Qed.

Lemma mt_sound r : forall prev s ps rest, mt r prev s = Some (ps, rest) -> fits r prev s ps rest.
Proof.
  induction r as [|it r IH]; intros prev s ps rest.
  - cbn. intros E. injection E as <- <-. reflexivity.
  - destruct it as [l|q|q|q| | | |l].
    + cbn [mt]. destruct (strip l s) as [s'|] eqn:E; [|discriminate]. intros P. apply piece_some in P as (ps' & -> & M).
      apply strip_spec in E. cbn [fits okp]. eauto.
    + cbn [mt]. destruct s as [|c s]; [discriminate|]. destruct (q c) eqn:Q; [|discriminate].
      intros P. apply piece_some in P as (ps' & -> & M). exists s. cbn [okp]. split; auto. split; eauto. 
    + revert prev ps. induction s as [|c s IS]; intros prev ps.
      * cbn [mt]. intros P. apply piece_some in P as (ps' & -> & M). exists []. cbn [okp]. split; auto.
      * cbn [mt]. fold (mt (Many q :: r)). intros P.
        destruct (if q c then _ else None) as [m|] eqn:E.
        -- injection P as ->. destruct (q c) eqn:Q; [|discriminate]. apply longer_some in E as (p & ps' & -> & M).
           destruct (IS (Some c) (p :: ps') M) as (s' & -> & O & F). exists s'. split; auto. cbn [okp forallb] in *. rewrite Q. auto.
        -- apply piece_some in P as (ps' & -> & M). exists (c :: s). cbn [okp]. split; auto.
    + revert prev ps. induction s as [|c s IS]; intros prev ps.
      * cbn [mt]. destruct (piece [] (mt r prev [])) as [m|] eqn:E; [|discriminate]. intros P. injection P as ->.
        apply piece_some in E as (ps' & -> & M). exists []. cbn [okp]. split; auto.
      * cbn [mt]. fold (mt (Few q :: r)). destruct (piece [] (mt r prev (c :: s))) as [m|] eqn:E.
        -- intros P. injection P as ->. apply piece_some in E as (ps' & -> & M). exists (c :: s). cbn [okp]. split; auto.
        -- destruct (q c) eqn:Q; [|discriminate]. intros P. apply longer_some in P as (p & ps' & -> & M).
           destruct (IS (Some c) (p :: ps') M) as (s' & -> & O & F). exists s'. split; auto. cbn [okp forallb] in *. rewrite Q. auto.
    + cbn [mt]. destruct (at_line prev) eqn:E; [|discriminate]. intros P. apply piece_some in P as (ps' & -> & M).
      exists s. cbn [okp]. auto.
    + cbn [mt]. destruct prev; [discriminate|]. intros P. apply piece_some in P as (ps' & -> & M). exists s. cbn [okp]. auto.
    + cbn [mt]. destruct (empty s) eqn:E; [|discriminate]. intros P. apply piece_some in P as (ps' & -> & M).
      apply empty_spec in E. exists s. cbn [okp]. auto.
    + cbn [mt]. destruct (empty s || starts l s) eqn:E; [|discriminate]. intros P. apply piece_some in P as (ps' & -> & M).
      exists s. cbn [okp]. split; auto. split; auto. split; auto. apply orb_true_iff in E as [E|E].
      * left. now apply empty_spec.
      * right. now apply starts_spec.
Qed.

Lemma mt_complete r : forall prev s ps rest, fits r prev s ps rest -> mt r prev s <> None.
Proof.
  induction r as [|it r IH]; intros prev s ps rest F; [discriminate|].
  destruct ps as [|p ps]; [contradiction|]. destruct F as (s' & -> & O & F).
  destruct it as [l|q|q|q| | | |l]; cbn [okp] in O.
  - subst p. cbn [mt]. rewrite strip_app. apply IH in F. destruct (mt r _ s') as [[]|]; [discriminate|contradiction].
  - destruct O as (c & -> & Q). cbn [mt app]. rewrite Q. apply IH in F. cbn in F. destruct (mt r _ s') as [[]|]; [discriminate|contradiction].
  - revert prev F. induction p as [|c p IP]; intros prev F.
    + cbn [app]. apply IH in F. cbn [lastc fold_left] in F. destruct s' as [|c s']; cbn [mt].
      * destruct (mt r prev []) as [[]|]; [discriminate|contradiction].
      * destruct (if q c then _ else None); [discriminate|]. destruct (mt r prev (c :: s')) as [[]|]; [discriminate|contradiction].
    + cbn [forallb] in O. apply andb_true_iff in O as [Q O]. cbn [app mt]. fold (mt (Many q :: r)). rewrite Q.
      specialize (IP O (Some c) F). destruct (mt (Many q :: r) (Some c) (p ++ s')) as [[ps' rest']|] eqn:E; [|contradiction].
      pose proof (mt_sound _ _ _ _ _ E) as X. destruct ps' as [|p' ps']; [contradiction|]. cbn in E. rewrite E. discriminate.
  - revert prev F. induction p as [|c p IP]; intros prev F.
    + cbn [app]. apply IH in F. cbn [lastc fold_left] in F. destruct s' as [|c s']; cbn [mt].
      * destruct (mt r prev []) as [[]|]; [discriminate|contradiction].
      * destruct (mt r prev (c :: s')) as [[]|]; [discriminate|contradiction].
    + cbn [forallb] in O. apply andb_true_iff in O as [Q O]. cbn [app mt]. fold (mt (Few q :: r)). rewrite Q.
      destruct (piece [] (mt r prev (c :: p ++ s'))) as [m|]; [discriminate|].
      specialize (IP O (Some c) F). destruct (mt (Few q :: r) (Some c) (p ++ s')) as [[ps' rest']|] eqn:E; [|contradiction].
      pose proof (mt_sound _ _ _ _ _ E) as X. destruct ps' as [|p' ps']; [contradiction|]. cbn in E. rewrite E. discriminate.
  - destruct O as [-> A]. cbn [mt app]. rewrite A. apply IH in F. cbn in F. destruct (mt r prev s') as [[]|]; [discriminate|contradiction].
  - destruct O as [-> ->]. cbn [mt app]. apply IH in F. cbn in F. destruct (mt r None s') as [[]|]; [discriminate|contradiction].
  - destruct O as [-> ->]. cbn [mt app empty]. apply IH in F. cbn in F. destruct (mt r prev []) as [[]|]; [discriminate|contradiction].
  - destruct O as [-> O]. cbn [mt app]. assert (E : empty s' || starts l s' = true).
    { apply orb_true_iff. destruct O as [->|O]; [now left|right]. now apply starts_spec. }
    rewrite E. apply IH in F. cbn in F. destruct (mt r prev s') as [[]|]; [discriminate|contradiction].
Qed.

(** a greedy repetition that can go to its end *)
Lemma mt_many q r t : forall prev s ps rest, forallb q t = true -> (forall c s', s = c :: s' -> q c = false) ->
  mt r (lastc prev t) s = Some (ps, rest) -> mt (Many q :: r) prev (t ++ s) = Some (t :: ps, rest).
Proof.
  induction t as [|c t IH]; intros prev s ps rest A NX M.
  - cbn [app]. cbn [lastc fold_left] in M. destruct s as [|c s]; cbn [mt]; rewrite ?M; auto. rewrite (NX c s eq_refl). reflexivity.
  - cbn [forallb] in A. apply andb_true_iff in A as [Q A]. cbn [app mt]. fold (mt (Many q :: r)). rewrite Q.
    rewrite lastc_cons in M. pose proof (IH (Some c) s ps rest A NX M) as X. cbn in X. rewrite X. reflexivity.
Qed.
(** a lazy repetition that has to go on *)
Lemma mt_few q r t : forall prev s ps rest, forallb q t = true ->
  (forall t1 t2, t = t1 ++ t2 -> t2 <> [] -> mt r (lastc prev t1) (t2 ++ s) = None) ->
  mt r (lastc prev t) s = Some (ps, rest) -> mt (Few q :: r) prev (t ++ s) = Some (t :: ps, rest).
Proof.
  induction t as [|c t IH]; intros prev s ps rest A NX M.
  - cbn [app]. cbn [lastc fold_left] in M. destruct s as [|c s]; cbn [mt]; rewrite M; reflexivity.
  - cbn [forallb] in A. apply andb_true_iff in A as [Q A]. cbn [app mt]. fold (mt (Few q :: r)).
    pose proof (NX [] (c :: t) eq_refl ltac:(discriminate)) as E. cbn [lastc fold_left app] in E. rewrite E, Q. cbn [piece].
    rewrite lastc_cons in M. assert (X : mt (Few q :: r) (Some c) (t ++ s) = Some (t :: ps, rest)).
    { apply IH; auto. intros t1 t2 -> NE. exact (NX (c :: t1) t2 eq_refl NE). }
    cbn in X. rewrite X. reflexivity.
Qed.

Lemma find_sound r : forall s prev b ps rest, find r prev s = Some (b, ps, rest) ->
  exists x, s = b ++ x /\ mt r (lastc prev b) x = Some (ps, rest) /\
  forall b1 b2, b = b1 ++ b2 -> b2 <> [] -> mt r (lastc prev b1) (b2 ++ x) = None.
Proof.
  induction s as [|c s IH]; intros prev b ps rest; cbn [find].
  - destruct (mt r prev []) as [[ps' r']|] eqn:E; [|discriminate]. intros X. injection X as <- <- <-.
    exists []. split; auto. split; auto. intros b1 b2 E2. destruct b1, b2; try discriminate. contradiction.
  - destruct (mt r prev (c :: s)) as [[ps' r']|] eqn:E.
    + intros X. injection X as <- <- <-. exists (c :: s). split; auto. split; auto.
      intros b1 b2 E2. destruct b1, b2; try discriminate. contradiction.
    + destruct (find r (Some c) s) as [[[b' ps'] r']|] eqn:F; [|discriminate]. intros X. injection X as <- <- <-.
      destruct (IH _ _ _ _ F) as (x & -> & M & NX). exists x. split; auto. split; auto.
      intros [|c1 b1] b2 E2 NE; cbn in E2; [subst b2; exact E|]. injection E2 as -> ->. exact (NX b1 b2 eq_refl NE).
Qed.
Lemma find_first r pre : forall prev s ps rest,
  (forall b1 b2, pre = b1 ++ b2 -> b2 <> [] -> mt r (lastc prev b1) (b2 ++ s) = None) ->
  mt r (lastc prev pre) s = Some (ps, rest) -> find r prev (pre ++ s) = Some (pre, ps, rest).
Proof.
  induction pre as [|c pre IH]; intros prev s ps rest NX M.
  - cbn [app]. cbn [lastc fold_left] in M. destruct s as [|c s]; cbn [find]; rewrite M; reflexivity.
  - cbn [app find]. pose proof (NX [] (c :: pre) eq_refl ltac:(discriminate)) as E. cbn [lastc fold_left app] in E. rewrite E.
    rewrite (IH (Some c) s ps rest); auto. intros b1 b2 -> NE. exact (NX (c :: b1) b2 eq_refl NE).
Qed.
Lemma find_none r : forall s prev, (forall b x, s = b ++ x -> mt r (lastc prev b) x = None) -> find r prev s = None.
Proof.
  induction s as [|c s IH]; intros prev W; cbn [find].
  - pose proof (W [] [] eq_refl) as E. cbn [lastc fold_left] in E. now rewrite E.
  - pose proof (W [] (c :: s) eq_refl) as E. cbn [lastc fold_left] in E. rewrite E.
    rewrite (IH (Some c)); auto. intros b x ->. exact (W (c :: b) x eq_refl).
Qed.
Lemma find_none_inv r : forall s prev, find r prev s = None -> forall b x, s = b ++ x -> mt r (lastc prev b) x = None.
Proof.
  induction s as [|c s IH]; intros prev; cbn [find]; destruct (mt r prev _) as [[ps rest]|] eqn:E; try discriminate.
  - intros _ b x E2. destruct b, x; try discriminate. exact E.
  - destruct (find r (Some c) s) as [[[b' ps'] r']|] eqn:F; [discriminate|]. intros _ [|d b] x E2; cbn in E2.
    + subst x. exact E.
    + injection E2 as <- ->. exact (IH _ F b x eq_refl).
Qed.

(** a replacement text without dollar signs *)
Lemma subst_plain m b a caps t : ~ In 36 t -> subst m b a caps t = t.
Proof.
  induction t as [|c t IH]; intros NI; auto. cbn [subst]. destruct (N.eqb_spec c 36) as [->|NE]; [exfalso; apply NI; now left|].
  rewrite IH; auto. intros X. apply NI. now right.
Qed.

(** numbers *)
Lemma dec_at_value f : forall n, n < 2 ^ N.of_nat f -> value (dec_at f n) = n.
Proof.
  induction f as [|f IH]; intros n LT.
  - cbn in LT. assert (n = 0) as -> by lia. reflexivity.
  - cbn [dec_at]. unfold value in *. rewrite fold_left_app. cbn [fold_left].
    pose proof (N.div_mod n 10 ltac:(lia)) as E. destruct (N.ltb_spec n 10) as [L|L].
    + cbn [fold_left]. rewrite (N.mod_small n 10 L). lia.
    + rewrite IH; [clear -E; revert E; generalize (n / 10), (n mod 10); lia|].
      rewrite Nat2N.inj_succ, N.pow_succ_r' in LT. apply N.div_lt_upper_bound; [lia|]. revert LT. generalize (2 ^ N.of_nat f). lia.
Qed.
Lemma value_dec n : value (dec n) = n.
Proof.
  unfold dec. apply dec_at_value. rewrite Nat2N.inj_succ, N2Nat.id. destruct n as [|p]; [reflexivity|].
  apply N.log2_spec. lia.
Qed.
Lemma dec_at_digits f n : forallb digit (dec_at f n) = true.
Proof.
  revert n. induction f as [|f IH]; intros n; auto. cbn [dec_at]. rewrite forallb_app. apply andb_true_iff. split.
  - destruct (n <? 10); auto.
  - cbn [forallb]. rewrite andb_true_r. unfold digit. pose proof (N.mod_lt n 10 ltac:(lia)) as L.
    revert L. generalize (n mod 10). intros m L. apply andb_true_iff; split; apply N.leb_le; lia.
Qed.
Lemma dec_digits n : forallb digit (dec n) = true.
Proof. apply dec_at_digits. Qed.
Lemma dec_cons n : exists c t, dec n = c :: t.
Proof. unfold dec. cbn [dec_at]. destruct (if n <? 10 then [] else _); cbn [app]; eauto. Qed.
(** matching item by item *)
Lemma mt_lit l r prev s ps rest : mt r (lastc prev l) s = Some (ps, rest) -> mt (Lit l :: r) prev (l ++ s) = Some (l :: ps, rest).
Proof. intros M. cbn [mt]. now rewrite strip_app, M. Qed.
Lemma mt_ch p r prev c s ps rest : p c = true -> mt r (Some c) s = Some (ps, rest) -> mt (Ch p :: r) prev (c :: s) = Some ([c] :: ps, rest).
Proof. intros Q M. cbn [mt]. now rewrite Q, M. Qed.
Lemma mt_bol r prev s ps rest : at_line prev = true -> mt r prev s = Some (ps, rest) -> mt (Bol :: r) prev s = Some ([] :: ps, rest).
Proof. intros Q M. cbn [mt]. now rewrite Q, M. Qed.
Lemma mt_bos r s ps rest : mt r None s = Some (ps, rest) -> mt (Bos :: r) None s = Some ([] :: ps, rest).
Proof. intros M. cbn [mt]. now rewrite M. Qed.
Lemma mt_eos r prev ps rest : mt r prev [] = Some (ps, rest) -> mt (Eos :: r) prev [] = Some ([] :: ps, rest).
Proof. intros M. cbn [mt empty]. now rewrite M. Qed.
Lemma mt_end prev s : mt [] prev s = Some ([], s).
Proof. reflexivity. Qed.
Lemma mt_not r prev s : (forall ps rest, ~ fits r prev s ps rest) -> mt r prev s = None.
Proof. intros W. destruct (mt r prev s) as [[ps rest]|] eqn:E; auto. apply mt_sound in E. now apply W in E. Qed.
(** a nonempty greedy run of a class *)
Lemma mt_some p r t : forall prev s ps rest, t <> [] -> forallb p t = true -> (forall c s', s = c :: s' -> p c = false) ->
  mt r (lastc prev t) s = Some (ps, rest) -> exists c t', t = c :: t' /\ mt (Ch p :: Many p :: r) prev (t ++ s) = Some ([c] :: t' :: ps, rest).
Proof.
  intros prev s ps rest NE A NX M. destruct t as [|c t]; [contradiction|]. cbn [forallb] in A. apply andb_true_iff in A as [Q A].
  exists c, t. split; auto. cbn [app]. apply mt_ch; auto. apply mt_many; auto.
Qed.
