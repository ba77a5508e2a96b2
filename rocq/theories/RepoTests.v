(** The tests of the repository (doublets/tests/*.rs), run on the models.

    These are tests of the models, not proofs about them: they check that the models, with
    the reference trees and lists, give the results which the authors' tests expect of the
    code.  [c_step] is 16 instead of 2^20 so that the memory grows within a test; one loop is
    shortened (its comment says to what).  Left out: tests of hashing
    and of derived formatting, of random histories (extensions.rs), and the ones with a million
    links. *)
From Coq Require Import NArith List Bool.
From Verif Require Import Base Trees Lists TreeImpl Iface UnitModel UnitLinks LinkModel SplitModel SplitLinks Doublets Obs Display.
Import ListNotations.
Open Scope N_scope.

(** usize; the internal range is the lower half, as in LinksConstants::external() *)
Definition t_cf : cfg :=
  mkCfg 18446744073709551615 16 8 0 1 2 0 9223372036854775803 1 9223372036854775800
    (Some (9223372036854775808, 18446744073709551615)).

(** ** A language for tests *)
Section Lang.
  Context {S : Type}.
  Definition test (A : Type) := S -> out (S * A).
  Definition ret {A} (a : A) : test A := fun st => Val (st, a).
  Definition bind {A B} (m : test A) (k : A -> test B) : test B := fun st => let* (st', a) := m st in k a st'.
  (** [m?] or [m.unwrap()] *)
  Definition ask {A} (m : S -> out (S * result A)) : test A := fun st =>
    let* (st', r) := m st in match r with Ok a => Val (st', a) | Err _ => Panic end.
  Definition is_err {A} (m : S -> out (S * result A)) : test bool := fun st =>
    let* (st', r) := m st in Val (st', match r with Ok _ => false | Err _ => true end).
  (** a call that returns the state of its handler *)
  Definition told_ {H A} (m : S -> out (S * H * result A)) : test H := fun st =>
    let* (st', x, r) := m st in match r with Ok _ => Val (st', x) | Err _ => Panic end.
  Definition see {A} (f : S -> out A) : test A := fun st => let* a := f st in Val (st, a).
  Definition seer {A} (f : S -> out (result A)) : test A := fun st =>
    let* r := f st in match r with Ok a => Val (st, a) | Err _ => Panic end.
  Definition unwrap {A} (o : option A) : test A := fun st => match o with Some a => Val (st, a) | None => Panic end.
  Definition check (b : bool) : test unit := fun st => if b then Val (st, tt) else Panic.
  (** for _ in 0..n *)
  Fixpoint times (n : nat) (m : test unit) : test unit :=
    match n with O => ret tt | Datatypes.S n' => bind m (fun _ => times n' m) end.
  Fixpoint collect {A} (n : nat) (m : test A) : test (list A) :=
    match n with O => ret [] | Datatypes.S n' => bind m (fun a => bind (collect n' m) (fun l => ret (a :: l))) end.
  Fixpoint for_each {A} (l : list A) (f : A -> test unit) : test unit :=
    match l with [] => ret tt | a :: l' => bind (f a) (fun _ => for_each l' f) end.
  Definition passes (st : S) (t : test unit) : bool := match t st with Val _ => true | _ => false end.
End Lang.
Arguments test : clear implicits.
Notation "'let!' x ':=' m 'in' k" := (bind m (fun x => k)) (at level 200, x pattern, right associativity).
Notation "m ';;' k" := (bind m (fun _ => k)) (at level 60, right associativity).

Definition isS {A} (o : option A) : bool := match o with Some _ => true | None => false end.
Definition isN {A} (o : option A) : bool := negb (isS o).
Definition has (l : list N) (i : N) : bool := existsb (N.eqb i) l.
Definition opt_eqb (o : option N) (i : N) : bool := match o with Some j => j =? i | None => false end.
Definition link_in (l : list link) (k : link) : bool := existsb (link_eqb k) l.
Fixpoint links_eqb (k l : list link) : bool :=
  match k, l with
  | [], [] => true
  | a :: k', b :: l' => link_eqb a b && links_eqb k' l'
  | _, _ => false
  end.
(** equality as a HashSet of pairwise distinct links *)
Definition set_eqb (k l : list link) : bool :=
  Nat.eqb (length k) (length l) && forallb (link_in l) k && forallb (link_in k) l.
Fixpoint every_other {A} (l : list A) : list A :=
  match l with [] => [] | [a] => [a] | a :: _ :: l' => a :: every_other l' end.
Definition upto (n : nat) : list nat := seq 0 n.

Section Tests.
  Context {S : Type}.
  Variable I : LinksI S.
  Let any := c_any t_cf.
  Notation T := (test S unit).

  Definition point : test S N := ask (d_create_point I).
  Definition mk (s t : N) : test S N := ask (d_create_link I s t).
  Definition create : test S N := ask (d_create I).
  Definition update (i s t : N) : test S N := ask (d_update I i s t).
  Definition delete (i : N) : test S N := ask (d_delete I i).
  Definition count : test S N := see (fun st => d_count I st).
  Definition count_by (q : list N) : test S N := see (fun st => d_count_by I st q).
  Definition get (i : N) : test S (option link) := see (fun st => li_get I st i).
  Definition getu (i : N) : test S link := let! o := get i in unwrap o.
  Definition exist (i : N) : test S bool := see (fun st => d_exist t_cf I st i).
  Definition found (q : list N) : test S bool := see (fun st => d_found I st q).
  Definition find (q : list N) : test S (option link) := see (fun st => d_find I st q).
  Definition single (q : list N) : test S (option link) := see (fun st => d_single I st q).
  Definition search (s t : N) : test S (option N) := see (fun st => d_search t_cf I st s t).
  Definition count_usages (i : N) : test S N := seer (fun st => d_count_usages t_cf I st i).
  Definition usages (i : N) : test S (list N) := seer (fun st => d_usages t_cf I st i).
  Definition has_usages (i : N) : test S bool := see (fun st => d_has_usages t_cf I st i).
  Definition iter : test S (list link) := see (fun st => d_iter t_cf I st).
  Definition each_iter (q : list N) : test S (list link) := see (fun st => d_each_iter I st q).
  Definition delete_all : test S unit := ask (d_delete_all I 100).
  Definition get_or_create (s t : N) : test S N := ask (d_get_or_create t_cf I s t).
  Definition rebase (a b : N) : test S N := ask (d_rebase t_cf I a b).
  (** the indices a handler that continues is given *)
  Definition collected (q : list N) : test S (list N) :=
    see (fun st => let* (v, _) := d_each_by (B := unit) I (fun v l => (v ++ [l_index l], None)) q st [] in Val v).
  (** the number of calls of a handler that breaks at the [n]th *)
  Definition visits_until (n : N) : test S N :=
    see (fun st => let* (v, _) := d_each I (fun v _ => (v + 1, if n <=? v + 1 then Some tt else None)) st 0 in Val v).
  Definition total_visits : test S N := let! l := collected [] in ret (N.of_nat (length l)).
  (** a handler that remembers what it is told *)
  Definition note : uwrite (list (link * link)) unit := fun v b a => (v ++ [(b, a)], None).

  (** traits.rs and query_tests.rs; the store has links a, b and c = (a, b) *)
  Definition abc (k : N -> N -> N -> T) : T := let! a := point in let! b := point in let! c := mk a b in k a b c.
  Definition ab (k : N -> N -> T) : T := let! a := point in let! b := point in k a b.
  Definition pts3 (k : N -> N -> N -> T) : T := let! a := point in let! b := point in let! c := point in k a b c.
  Definition is_n (m : test S N) (n : N) : T := let! x := m in check (x =? n).
  Definition ge_n (m : test S N) (n : N) : T := let! x := m in check (n <=? x).
  Definition yes (m : test S bool) : T := let! b := m in check b.
  Definition no (m : test S bool) : T := let! b := m in check (negb b).
  Definition some {A} (m : test S (option A)) : T := let! o := m in check (isS o).
  Definition none {A} (m : test S (option A)) : T := let! o := m in check (isN o).
  Definition is_some (m : test S (option N)) (i : N) : T := let! o := m in check (opt_eqb o i).

  (** traits.rs *)
  Definition t_count_links : T := is_n count 0;; pts3 (fun _ _ _ => is_n count 3).
  Definition t_found : T := let! a := point in yes (found [a]);; no (found [100]).
  Definition t_find : T :=
    let! a := point in let! o := find [a] in let! l := unwrap o in check (l_index l =? a);; none (find [100]).
  Definition t_search : T := abc (fun a b c => is_some (search a b) c;; none (search b a)).
  Definition t_single : T :=
    let! a := point in let! o := single [a] in let! l := unwrap o in check (l_index l =? a).
  (** single on several matches; the test of the unit store only *)
  Definition t_single_more : T :=
    ab (fun a b => mk a b;; mk b b;; single [any; any; b];; ret tt).
  Definition t_get_or_create : T := ab (fun a b => let! x := get_or_create a b in is_n (get_or_create a b) x).
  Definition t_count_usages : T := ab (fun a b => is_n (count_usages a) 0;; mk a b;; is_n (count_usages a) 1).
  Definition t_usages_empty : T := let! a := point in let! l := usages a in check (Nat.eqb (length l) 0).
  Definition t_usages : T := abc (fun a b c => let! l := usages a in check (has l c)).
  Definition t_exist : T := let! a := point in yes (exist a);; no (exist 100).
  Definition t_has_usages : T := ab (fun a b => no (has_usages a);; mk a b;; yes (has_usages a)).
  Definition t_delete_all : T := pts3 (fun _ _ _ => is_n count 3;; delete_all;; is_n count 0).
  Definition t_delete_usages : T :=
    abc (fun a _ _ => yes (has_usages a);; ask (d_delete_usages t_cf I a);; no (has_usages a)).
  Definition t_create_point : T :=
    let! p := point in let! l := getu p in check ((l_index l =? l_source l) && (l_source l =? l_target l)).
  Definition t_create_link : T := abc (fun a b c => let! l := getu c in check ((l_source l =? a) && (l_target l =? b))).
  Definition t_rebase : T := abc (fun a b c => rebase a b;; let! l := getu c in check (l_source l =? b)).
  Definition t_rebase_and_delete : T :=
    abc (fun a b _ => let! n := count in ask (d_rebase_and_delete t_cf I a b);; none (get a);;
         let! m := count in check (m <? n)).
  Definition t_try_get_link : T :=
    let! a := point in let! l := seer (fun st => d_try_get_link I st a) in check (l_index l =? a);;
    let! r := see (fun st => d_try_get_link I st 100) in check (match r with Err _ => true | Ok _ => false end).
  Definition t_iter : T :=
    ab (fun a b => let! l := iter in check (Nat.eqb (length l) 2 && has (map l_index l) a && has (map l_index l) b)).
  Definition t_each_iter : T :=
    abc (fun a _ _ => let! l := each_iter [any; a; any] in
         check (negb (Nat.eqb (length l) 0) && forallb (fun k => l_source k =? a) l)).
  Definition t_each_flow : T := pts3 (fun _ _ _ => is_n total_visits 3).
  Definition t_each_break : T := pts3 (fun _ _ _ => is_n (visits_until 2) 2).
  Definition t_create_by_with : T :=
    let! v := told_ (fun st => d_create_by_with I note [] st []) in check (negb (Nat.eqb (length v) 0)).
  Definition t_update_by_with : T :=
    ab (fun a b => let! v := told_ (fun st => d_update_by_with I note [a] [a; a; b] st []) in
        check (match rev v with (_, x) :: _ => l_target x =? b | [] => false end)).
  Definition t_delete_by_with : T :=
    let! a := point in let! v := told_ (fun st => d_delete_by_with I note [a] st []) in
    check (negb (Nat.eqb (length v) 0));; none (get a).
  Definition t_create_link_with : T :=
    ab (fun a b => let! v := told_ (fun st => d_create_link_with I note a b st []) in check (negb (Nat.eqb (length v) 0))).
  Definition t_delete_with : T :=
    let! a := point in let! v := told_ (fun st => d_delete_with I note a st []) in
    check (match rev v with (b, _) :: _ => l_index b =? a | [] => false end);; none (get a).
  Definition t_update_with : T :=
    ab (fun a b => let! v := told_ (fun st => d_update_with I note a a b st []) in
        check (match rev v with (_, x) :: _ => l_target x =? b | [] => false end)).
  Definition t_delete_query_with : T :=
    pts3 (fun a b c => mk a b;; mk a c;; let! n := count in
      let! v := told_ (fun st => d_delete_query_with I note [any; a; any] st []) in
      check (negb (Nat.eqb (length v) 0));; let! m := count in check (m <? n)).
  Definition t_delete_usages_with : T :=
    abc (fun a _ _ => let! v := told_ (fun st => d_delete_usages_with t_cf I note a st []) in
      check (negb (Nat.eqb (length v) 0));; no (has_usages a)).
  Definition t_rebase_with : T :=
    abc (fun a b c => told_ (fun st => d_rebase_with t_cf I note a b st []);;
      let! l := getu c in check (l_source l =? b)).
  Definition t_rebase_same : T := let! a := point in rebase a a;; some (get a).
  Definition t_rebase_and_delete_same : T :=
    let! a := point in is_n (ask (d_rebase_and_delete t_cf I a a)) a;; some (get a).
  Definition t_exist_external : T := exist any;; ret tt.
  Definition t_create_with : T :=
    let! v := told_ (fun st => d_create_with I note st []) in
    match rev v with (_, x) :: _ => some (get (l_index x)) | [] => check false end.

  (** query_tests.rs: counts *)
  Definition t_q_counts : T :=
    ab (fun _ _ => is_n (count_by []) 2;; is_n (count_by [any]) 2;; is_n (count_by [any; any]) 2;;
                   is_n (count_by [any; any; any]) 2).
  Definition t_q_count_index : T :=
    let! a := point in is_n (count_by [a]) 1;; is_n (count_by [100]) 0;; is_n (count_by [a; any]) 1;;
    is_n (count_by [100; any]) 0;; is_n (count_by [a; any; any]) 1;; is_n (count_by [100; any; any]) 0.
  Definition t_q_count_any_value : T := abc (fun a _ _ => ge_n (count_by [any; a]) 1).
  Definition t_q_count_index_value : T :=
    abc (fun a b c => is_n (count_by [c; a]) 1;; is_n (count_by [c; b]) 1;; is_n (count_by [c; 100]) 0).
  Definition t_q_count_ends : T :=
    abc (fun a b _ => ge_n (count_by [any; a; any]) 1;; ge_n (count_by [any; any; b]) 1).
  Definition t_q_count_pair : T :=
    abc (fun a b _ => is_n (count_by [any; a; b]) 1;; is_n (count_by [any; b; a]) 0).
  Definition t_q_count_full : T :=
    abc (fun a b c => is_n (count_by [c; a; b]) 1;; is_n (count_by [c; b; a]) 0;;
      is_n (count_by [c; any; b]) 1;; is_n (count_by [c; any; a]) 0;;
      is_n (count_by [c; a; any]) 1;; is_n (count_by [c; b; any]) 0).
  (** query_tests.rs: visits *)
  Definition sees (q : list N) (l : list N) : T :=
    let! v := collected q in check (Nat.eqb (length v) (length l) && forallb (has v) l).
  Definition t_q_each_all : T := ab (fun a b => let! v := collected [] in check (has v a && has v b)).
  Definition t_q_each_index : T := ab (fun a _ => sees [a] [a];; sees [100] []).
  Definition t_q_each_index_any : T := let! a := point in sees [a; any] [a];; sees [100; any; any] [].
  Definition t_q_each_index_value : T := abc (fun a _ c => let! v := collected [c; a] in check (has v c);; sees [c; 100] []).
  Definition t_q_each_any_value : T := abc (fun a _ _ => let! v := collected [any; a] in check (negb (Nat.eqb (length v) 0))).
  Definition t_q_each_full : T :=
    abc (fun a b c => sees [c; a; b] [c];; sees [c; b; a] [];; sees [c; any; b] [c];; sees [c; any; a] [];;
      sees [c; a; any] [c];; sees [c; b; any] []).
  Definition t_q_multiple : T :=
    pts3 (fun a b c => let! x := mk a b in let! y := mk a c in ge_n (count_usages a) 2;;
      is_some (search a b) x;; is_some (search a c) y).
  Definition t_q_delete_recreate : T :=
    let! a := point in delete a;; no (exist a);; let! b := point in yes (exist b).
  Definition t_q_delete_missing : T := yes (is_err (d_delete I 100)).
  Definition t_q_update_missing : T := yes (is_err (d_update I 100 1 1)).
  (** 1000 links in the test, 300 here *)
  Definition t_q_many : T := times 300 (point;; ret tt);; is_n count 300.
  Definition t_q_complex : T :=
    pts3 (fun a b c => mk a b;; mk b c;; mk c a;;
      for_each [a; b; c] (fun x => ge_n (count_by [any; x; any]) 1;; ge_n (count_by [any; any; x]) 1)).
  Definition t_q_update_both : T :=
    pts3 (fun a b c => let! d := mk a b in update d c c;; let! l := getu d in check ((l_source l =? c) && (l_target l =? c))).
  Definition t_q_usages : T :=
    ab (fun a b => let! x := mk a b in let! y := mk a a in let! v := usages a in check (has v x || has v y)).

  (** store_internals.rs *)
  Definition t_i_delete_middle : T :=
    pts3 (fun a b c => is_n count 3;; delete b;; is_n count 2;; yes (exist a);; no (exist b);; yes (exist c);;
      let! d := point in is_n count 3;; check (d =? b)).
  Definition t_i_delete_last : T :=
    pts3 (fun a b c => delete b;; delete c;; is_n count 1;; yes (exist a);; no (exist b);; no (exist c)).
  Definition t_i_non_sequential : T :=
    let! a := point in let! b := point in let! c := point in let! d := point in let! e := point in
    delete b;; delete d;; is_n count 3;; let! f := point in let! g := point in
    check (((f =? d) || (f =? b)) && ((g =? d) || (g =? b)) && negb (f =? g));; is_n count 5.
  Definition t_i_delete_all_recreate : T :=
    times 5 (point;; ret tt);; is_n count 5;; delete_all;; is_n count 0;; is_n point 1.
  Definition t_i_delete_usages_first : T :=
    ab (fun a b => mk a b;; mk b a;; yes (has_usages a);; ask (d_delete_usages t_cf I a);; no (has_usages a);;
      delete a;; no (exist a)).
  Definition t_i_many_operations : T :=
    let! ps := collect 50 point in
    for_each (upto 25) (fun i => mk (nth i ps 0) (nth (49 - i) ps 0);; ret tt);;
    for_each (every_other ps) (fun p => let! u := has_usages p in if u then ret tt else delete p;; ret tt);;
    times 10 (point;; ret tt);; let! n := count in is_n total_visits n.
  Definition t_i_consistency : T :=
    pts3 (fun a b c => mk a b;; mk a c;; is_n (count_usages a) 2;; mk b c;; get_or_create a c;;
      let! v := usages c in check (Nat.leb 2 (length v))).
  Definition t_i_consistency_split : T := pts3 (fun a b c => mk a b;; mk a c;; is_n (count_usages a) 2).
  Definition t_i_search : T :=
    pts3 (fun a b c => let! x := mk a b in let! y := mk a c in let! z := mk b c in
      is_some (search a b) x;; is_some (search a c) y;; is_some (search b c) z;; none (search c a);; none (search b a)).
  Definition t_i_filters : T :=
    pts3 (fun a b c => mk a b;; mk a c;; mk b c;;
      let! v := collected [any; a; any] in check (Nat.leb 2 (length v));;
      let! w := collected [any; any; c] in check (Nat.leb 2 (length w))).
  Definition t_i_first : T := let! a := point in check (a =? 1);; delete a;; is_n count 0;; is_n point 1.
  Definition t_i_alternating : T :=
    times 20 (let! a := point in let! b := point in delete a;; let! c := point in check (c =? a);; delete b;; delete c;; ret tt);;
    is_n count 0.
  Definition t_i_break : T := times 10 (point;; ret tt);; is_n (visits_until 5) 5.
  Definition t_i_usages_single : T := abc (fun a b _ => ge_n (count_usages a) 1;; ge_n (count_usages b) 1).
  Definition t_i_usages_many : T :=
    let! base := point in times 20 (let! t := point in mk base t;; ret tt);; ge_n (count_usages base) 20.
  Definition t_i_usages_handler : T :=
    pts3 (fun a b c => mk a b;; mk a c;; mk b a;; let! v := usages a in check (Nat.leb 2 (length v))).
  Definition t_i_mesh : T :=
    let! ps := collect 10 point in
    let pairs := flat_map (fun i => map (fun j => (nth i ps 0, nth j ps 0)) (seq (i + 1) (9 - i))) (upto 10) in
    for_each pairs (fun p => mk (fst p) (snd p);; ret tt);; for_each pairs (fun p => some (search (fst p) (snd p))).
  Definition t_i_delete_updates : T :=
    pts3 (fun a b c => let! x := mk a b in let! y := mk a c in some (search a b);; some (search a c);;
      let! n := count_usages a in delete x;; none (search a b);; some (search a c);; yes (has_usages a);;
      delete y;; let! m := count_usages a in check ((m <? n) || (n =? 0))).
  Definition t_i_stress : T :=
    let! base := point in let! ls := collect 100 (let! t := point in mk base t) in
    for_each (every_other ls) (fun l => delete l;; ret tt);;
    let! u := count_usages base in check (0 <? u);; let! n := count in is_n total_visits n.
  Definition t_i_ordered : T :=
    let! base := point in times 50 (let! t := point in mk base t;; some (search base t)).
  Definition t_i_reverse : T :=
    let! ts := collect 50 point in let! base := point in
    for_each (rev ts) (fun t => mk base t;; ret tt);; for_each ts (fun t => some (search base t)).
  Definition t_i_same_target : T :=
    let! t := point in times 20 (let! s := point in mk s t;; ret tt);; let! v := usages t in check (Nat.leb 20 (length v)).
  Definition t_i_mixed : T :=
    ab (fun a b => times 10 (let! l := mk a b in some (search a b);; delete l;; ge_n count 2)).
  Definition t_i_update : T :=
    pts3 (fun a b c => let! l := mk a b in update l a c;; none (search a b);; some (search a c)).
  Definition t_i_no_usages : T :=
    ab (fun a b => let! ua := count_usages a in let! ub := count_usages b in let! l := mk a b in
      ge_n (count_usages a) ua;; delete l;; is_n (count_usages a) ua;; is_n (count_usages b) ub).

  (** mem.rs *)
  Definition t_m_new : T := is_n count 0.
  Definition t_m_crud : T :=
    let! a := create in check (0 <? a);; some (get a);; let! b := create in update a a b;;
    let! l := getu a in check (l_target l =? b);; delete a;; none (get a).
  (** iter.rs *)
  Definition t_it_iter : T :=
    abc (fun _ _ _ => let! l := iter in check (set_eqb l [mkLink 1 1 1; mkLink 2 2 2; mkLink 3 1 2])).
  Definition t_it_bug : T :=
    abc (fun a b c => delete b;; update c b b;; let! l := iter in check (set_eqb l [mkLink 1 1 1; mkLink 3 2 2])).
  Definition t_it_each : T :=
    mk 1 1;; mk 2 1;; mk 3 1;; let! l := each_iter [any; any; 1] in
    check (set_eqb l [mkLink 1 1 1; mkLink 2 2 1; mkLink 3 3 1]).
  (** doublets.rs: rebase *)
  Definition t_x_rebase : T :=
    let! a := point in let! b := point in
    let! x := point in let! c := update x x a in let! y := point in let! d := update y a y in
    let! l := iter in check (links_eqb l [mkLink a a a; mkLink b b b; mkLink c c a; mkLink d a d]);;
    rebase a b;;
    let! l := iter in check (links_eqb l [mkLink a a a; mkLink b b b; mkLink c c b; mkLink d b d]).
  (** seq.rs: bug *)
  Definition t_s_bug : T :=
    ab (fun a b => mk a b;; mk 1 10;; mk 10 1;; delete a;; each_iter [any; any; 1];; ret tt).
  (** seq.rs: write_seq and read_seq; here the sequence read back is also compared *)
  Definition write_seq (l : list N) : test S N :=
    let! first := create in
    let! als := (fix go l := match l with [] => ret [] | id :: l' =>
      let! k := create in let! k' := update k k id in let! r := go l' in ret (k' :: r) end) l in
    (fix links l := match l with
       | x :: ((y :: _) as l') => mk x y;; links l'
       | _ => ret tt
       end) (first :: als);; ret first.
  Definition custom_single (q : list N) : test S (option link) :=
    see (fun st => let* (r, _) := d_each_by (B := unit) I (fun r l =>
      if isN r && negb (l_index l =? l_source l) then (Some l, None)
      else if negb (l_index l =? l_source l) then (None, Some tt) else (r, None)) q st None in Val r).
  Fixpoint read_seq (fuel : nat) (cur : N) : test S (list N) :=
    match fuel with
    | O => fun _ => Diverge
    | Datatypes.S f =>
        let! o := custom_single [any; cur; any] in
        match o with
        | None => ret []
        | Some l => let! al := seer (fun st => d_try_get_link I st (l_target l)) in
                    let! r := read_seq f (l_target l) in ret (l_target al :: r)
        end
    end.
  Definition t_s_seq : T :=
    let l1 := [66; 101; 105; 32; 78; 97; 99; 104; 116] in let l2 := [69; 108; 102; 101; 33] in
    let! a := write_seq l1 in let! b := write_seq l2 in
    read_seq 20 a;; read_seq 20 b;; ret tt.
End Tests.

(** ** The stores of the tests *)
Definition U_ := unit_links t_cf ref_tree_ops ref_list_ops.
Definition S_ := split_links t_cf ref_tree_ops ref_list_ops.
Definition u0 : ust :=
  match u_open t_cf (u_blank (fun _ _ => true)) with Val (Ok st) => st | _ => u_blank (fun _ _ => true) end.
Definition s0 : sst :=
  let g := fun _ _ _ => Grown in match s_open t_cf (s_blank g) with Val (Ok st) => st | _ => s_blank g end.

(** Tests the repository has for unit::Store. *)
Definition unit_tests : list (test ust unit) :=
  [t_count_links U_; t_found U_; t_find U_; t_search U_; t_single U_; t_single_more U_; t_get_or_create U_;
   t_count_usages U_; t_usages_empty U_; t_usages U_; t_exist U_; t_has_usages U_; t_delete_all U_; t_delete_usages U_;
   t_create_point U_; t_create_link U_; t_rebase U_; t_rebase_and_delete U_; t_try_get_link U_; t_iter U_; t_each_iter U_;
   t_each_flow U_; t_each_break U_; t_create_by_with U_; t_update_by_with U_; t_delete_by_with U_; t_create_link_with U_;
   t_delete_with U_; t_update_with U_; t_delete_query_with U_; t_delete_usages_with U_; t_rebase_with U_;
   t_rebase_same U_; t_rebase_and_delete_same U_; t_exist_external U_; t_create_with U_;
   t_q_counts U_; t_q_count_index U_; t_q_count_any_value U_; t_q_count_index_value U_; t_q_count_ends U_;
   t_q_count_pair U_; t_q_count_full U_; t_q_each_all U_; t_q_each_index U_; t_q_each_index_any U_;
   t_q_each_index_value U_; t_q_each_any_value U_; t_q_each_full U_; t_q_multiple U_; t_q_delete_recreate U_;
   t_q_delete_missing U_; t_q_update_missing U_; t_q_many U_; t_q_complex U_; t_q_update_both U_; t_q_usages U_;
   t_i_delete_middle U_; t_i_delete_last U_; t_i_non_sequential U_; t_i_delete_all_recreate U_;
   t_i_delete_usages_first U_; t_i_many_operations U_; t_i_consistency U_; t_i_search U_; t_i_filters U_; t_i_first U_;
   t_i_alternating U_; t_i_break U_; t_m_new U_; t_m_crud U_; t_it_iter U_; t_it_bug U_; t_it_each U_; t_x_rebase U_].

(** Tests the repository has for split::Store. *)
Definition split_tests : list (test sst unit) :=
  [t_count_links S_; t_found S_; t_get_or_create S_; t_delete_all S_; t_create_by_with S_; t_update_with S_;
   t_delete_with S_; t_rebase S_; t_rebase_and_delete S_; t_count_usages S_; t_usages S_; t_exist S_; t_has_usages S_;
   t_search S_; t_single S_; t_find S_; t_try_get_link S_; t_delete_usages S_; t_iter S_; t_each_iter S_;
   t_q_counts S_; t_q_count_pair S_; t_q_each_all S_; t_q_each_index S_; t_q_multiple S_; t_q_delete_recreate S_;
   t_q_delete_missing S_; t_q_update_missing S_; t_q_many S_; t_q_complex S_; t_q_update_both S_; t_q_usages S_;
   t_i_delete_middle S_; t_i_delete_last S_; t_i_consistency_split S_; t_i_break S_; t_i_usages_single S_;
   t_i_usages_many S_; t_i_usages_handler S_; t_i_search S_; t_i_mesh S_; t_i_delete_updates S_; t_i_stress S_;
   t_i_ordered S_; t_i_reverse S_; t_i_same_target S_; t_i_mixed S_; t_i_update S_; t_i_no_usages S_; t_i_filters S_;
   t_m_new S_; t_m_crud S_; t_it_iter S_; t_it_bug S_; t_it_each S_; t_s_bug S_; t_s_seq S_].

Example unit_tests_pass : forallb (passes u0) unit_tests = true.
Proof. vm_compute. reflexivity. Qed.
Example split_tests_pass : forallb (passes s0) split_tests = true.
Proof. vm_compute. reflexivity. Qed.
(** A wrong expectation does fail. *)
Example wrong_test_fails :
  passes u0 (abc U_ (fun a b c => is_some (search U_ a b) a)) || passes s0 (abc S_ (fun a b c => is_n (count_usages S_ a) 2)) = false.
Proof. vm_compute. reflexivity. Qed.

(** ** Formatting *)
Section Formatting.
  Import Coq.Strings.String.
  Open Scope string_scope.
  (** [str::contains] *)
  Fixpoint contains (s p : string) : bool :=
    prefix p s || match s with EmptyString => false | String _ s' => contains s' p end.
  (** tests/link.rs:111-116, tests/doublet.rs:15-27 *)
  Example link_debug_format : show_link (mkLink 1 2 3) = "1: 2 3". Proof. reflexivity. Qed.
  Example doublet_display : show_doublet 1 2 = "1->2". Proof. reflexivity. Qed.
  Example doublet_display_large_values : show_doublet 12345 67890 = "12345->67890". Proof. reflexivity. Qed.
  (** tests/error.rs:5-49 *)
  Example error_not_exists : let d := show_error (SNotExists 42) in contains d "42" && contains d "does not exist" = true.
  Proof. reflexivity. Qed.
  Example error_has_usages : contains (show_error (SHasUsages [mkLink 1 2 3; mkLink 2 3 4])) "dependencies" = true.
  Proof. reflexivity. Qed.
  Example error_already_exists : let d := show_error (SAlreadyExists 1 2) in contains d "already exists" && contains d "1->2" = true.
  Proof. reflexivity. Qed.
  Example error_limit_reached : let d := show_error (SLimitReached 1000) in contains d "1000" && contains d "limit" = true.
  Proof. reflexivity. Qed.
  Example error_from_io_error : contains (show_error (SAllocFailed "out of memory")) "allocate memory" = true.
  Proof. reflexivity. Qed.
  Example error_other : contains (show_error (SOther "custom error")) "internal error" = true.
  Proof. reflexivity. Qed.
End Formatting.
