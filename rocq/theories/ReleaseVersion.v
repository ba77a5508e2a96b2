(** The version of the release scripts: scripts/bump-version.mjs and the functions that
    scripts/version-and-commit.mjs and scripts/collect-changelog.mjs share with it. *)
From Coq Require Import Ascii String NArith List Bool Lia.
From Verif Require Import JsText Release.
Import ListNotations.
Open Scope N_scope.

(** ** What the claims are about *)
(** The end of this text is the start of a line. *)
Definition line_start (b : str) : Prop := b = [] \/ exists b' c, b = b' ++ [c] /\ line_end c = true.
Definition blank (w : str) : Prop := Forall (fun c => space c = true) w.
(** [s] starts with the assignment of a quoted text to version. *)
Definition assigns (s : str) : Prop :=
  exists w1 w2 x r, s = js "version" ++ w1 ++ js "=" ++ w2 ++ [34] ++ x ++ [34] ++ r /\
  blank w1 /\ blank w2 /\ x <> [] /\ ~ In 34 x.
(** The text [pre ++ x ++ post] gives the version [x], in the first line that gives one. *)
Definition version_at (pre x post : str) : Prop :=
  exists b w1 w2 r, pre = b ++ js "version" ++ w1 ++ js "=" ++ w2 ++ [34] /\ post = 34 :: r /\
  line_start b /\ blank w1 /\ blank w2 /\ x <> [] /\ ~ In 34 x /\
  forall b1 b2 s, b = b1 ++ b2 -> b2 <> [] -> line_start b1 -> pre ++ x ++ post = b1 ++ s -> ~ assigns s.
(** decimal numerals *)
Inductive reads : str -> N -> Prop :=
| reads_one d : d < 10 -> reads [48 + d] d
| reads_more s n d : reads s n -> d < 10 -> reads (s ++ [48 + d]) (10 * n + d).
Definition plain (x : str) (v : N * N * N) : Prop :=
  exists s1 s2 s3, x = s1 ++ js "." ++ s2 ++ js "." ++ s3 /\
  reads s1 (fst (fst v)) /\ reads s2 (snd (fst v)) /\ reads s3 (snd v).
(** the next version of each kind *)
Inductive asks : str -> N * N * N -> N * N * N -> Prop :=
| asks_major a b c : asks (js "major") (a, b, c) (a + 1, 0, 0)
| asks_minor a b c : asks (js "minor") (a, b, c) (a, b + 1, 0)
| asks_patch a b c : asks (js "patch") (a, b, c) (a, b, c + 1).
(** the order of versions *)
Definition later (v w : N * N * N) : Prop :=
  fst (fst v) < fst (fst w) \/ fst (fst v) = fst (fst w) /\
  (snd (fst v) < snd (fst w) \/ snd (fst v) = snd (fst w) /\ snd v < snd w).
(** numbers that are exact *)
Definition exact (v : N * N * N) : Prop := fst (fst v) < 2 ^ 53 /\ snd (fst v) < 2 ^ 53 /\ snd v < 2 ^ 53.
(** No line assigns a plain version. *)
Definition no_plain (f : str) : Prop :=
  forall b s w1 w2 x v r, f = b ++ s -> line_start b -> blank w1 -> blank w2 -> plain x v ->
  s <> js "version" ++ w1 ++ js "=" ++ w2 ++ [34] ++ x ++ [34] ++ r.

(** ** Proofs *)
Lemma blank_spec w : blank w <-> forallb space w = true.
Proof. unfold blank. rewrite Forall_forall, forallb_forall. reflexivity. Qed.
Lemma line_start_spec b : line_start b <-> at_line (lastc None b) = true.
Proof.
  unfold line_start. destruct (rev b) as [|c b'] eqn:E.
  - apply (f_equal (@rev N)) in E. rewrite rev_involutive in E. cbn in E. subst b. cbn. split; auto.
  - apply (f_equal (@rev N)) in E. rewrite rev_involutive in E. cbn in E. subst b. rewrite lastc_app. cbn. split.
    + intros [E|(b2 & d & E & L)]; [destruct (rev b'); discriminate|]. apply app_inj_tail in E as [_ <-]. exact L.
    + intros L. right. eauto.
Qed.
Lemma no_quote_spec x : ~ In 34 x <-> forallb no_quote x = true.
Proof.
  rewrite forallb_forall. unfold no_quote. split.
  - intros NI c I. destruct (N.eqb_spec c 34) as [->|]; auto.
  - intros W I. apply W in I. discriminate.
Qed.

Lemma reads_snoc_digit d : d < 10 -> digit (48 + d) = true.
Proof. intros L. unfold digit. apply andb_true_iff; split; apply N.leb_le; lia. Qed.
Lemma reads_digits s n : reads s n -> forallb digit s = true.
Proof.
  induction 1; cbn [forallb]; rewrite ?forallb_app, ?IHreads; cbn [forallb andb]; now rewrite reads_snoc_digit.
Qed.
Lemma reads_value s n : reads s n -> value s = n.
Proof.
  unfold value. induction 1 as [d L|s n d R IH L]; [cbn [fold_left]; lia|]. rewrite fold_left_app, IH. cbn [fold_left]. lia.
Qed.
Lemma reads_cons s n : reads s n -> s <> [].
Proof. induction 1; [discriminate|]. destruct s; discriminate. Qed.
Lemma digits_read s : s <> [] -> forallb digit s = true -> reads s (value s).
Proof.
  induction s as [|c s IH] using rev_ind; [contradiction|]. intros _ D. rewrite forallb_app in D. apply andb_true_iff in D as [D C].
  cbn in C. rewrite andb_true_r in C. unfold digit in C. apply andb_true_iff in C as [C1 C2]. apply N.leb_le in C1, C2.
  assert (E : c = 48 + (c - 48)) by lia. unfold value. rewrite fold_left_app. cbn [fold_left]. rewrite E at 1.
  destruct s as [|c' s].
  - cbn [app fold_left]. replace (10 * 0 + (c - 48)) with (c - 48) by lia. apply reads_one. lia.
  - apply reads_more; [|lia]. apply IH; [discriminate|exact D].
Qed.
Lemma dec_reads n : reads (dec n) n.
Proof. rewrite <- (value_dec n) at 2. apply digits_read; [|apply dec_digits]. destruct (dec_cons n) as (c & t & ->). discriminate. Qed.

(** matching an assignment *)
Lemma blank_stops c s : space c = false -> forall d s', c :: s = d :: s' -> space d = false.
Proof. intros H d s' E. now injection E as <- _. Qed.
Lemma mt_open r prev w1 w2 s ps rest : at_line prev = true -> blank w1 -> blank w2 ->
  mt r (Some 34) s = Some (ps, rest) ->
  mt (r_open ++ r) prev (js "version" ++ w1 ++ js "=" ++ w2 ++ [34] ++ s) =
  Some ([] :: js "version" :: w1 :: js "=" :: w2 :: [34] :: ps, rest).
Proof.
  intros A B1 B2 M. apply blank_spec in B1, B2. unfold r_open. change ([?a; ?b; ?c; ?d; ?e; ?f] ++ r) with (a :: b :: c :: d :: e :: f :: r).
  apply mt_bol; auto. apply mt_lit. apply mt_many; auto.
  { change (js "=" ++ ?x) with (61 :: x). now apply blank_stops. }
  apply mt_lit. apply mt_many; auto.
  { change ([34] ++ ?x) with (34 :: x). now apply blank_stops. }
  apply mt_lit. exact M.
Qed.
Lemma fits_open r prev s ps rest : fits (r_open ++ r) prev s ps rest ->
  exists w1 w2 s', s = js "version" ++ w1 ++ js "=" ++ w2 ++ [34] ++ s' /\ blank w1 /\ blank w2 /\ at_line prev = true /\
  exists ps', fits r (Some 34) s' ps' rest.
Proof.
  unfold r_open. change ([?a; ?b; ?c; ?d; ?e; ?f] ++ r) with (a :: b :: c :: d :: e :: f :: r).
  destruct ps as [|p0 ps]; [contradiction|]. intros (s0 & -> & [-> A] & F).
  destruct ps as [|p1 ps]; [contradiction|]. destruct F as (s1 & -> & -> & F).
  destruct ps as [|w1 ps]; [contradiction|]. destruct F as (s2 & -> & B1 & F).
  destruct ps as [|p3 ps]; [contradiction|]. destruct F as (s3 & -> & -> & F).
  destruct ps as [|w2 ps]; [contradiction|]. destruct F as (s4 & -> & B2 & F).
  destruct ps as [|p5 ps]; [contradiction|]. destruct F as (s5 & -> & -> & F).
  exists w1, w2, s5. rewrite !blank_spec. repeat split; auto. exists ps. rewrite lastc_app in F || idtac. cbn in F.
  rewrite !lastc_app in F || idtac. exact F.
Qed.
Lemma fits_run p r prev s ps rest : fits (Ch p :: Many p :: r) prev s ps rest ->
  exists t s' q ps', s = t ++ s' /\ t <> [] /\ forallb p t = true /\ fits r q s' ps' rest.
Proof.
  destruct ps as [|p0 ps]; [contradiction|]. intros (s0 & -> & (c & -> & Q) & F).
  destruct ps as [|p1 ps]; [contradiction|]. destruct F as (s1 & -> & A & F). cbn [okp] in A.
  exists (c :: p1), s1. eexists _, ps. repeat split; [discriminate| |exact F]. cbn [forallb]. now rewrite Q, A.
Qed.
Lemma fits_lit l r prev s ps rest : fits (Lit l :: r) prev s ps rest ->
  exists s' q ps', s = l ++ s' /\ fits r q s' ps' rest.
Proof.
  destruct ps as [|p0 ps]; [contradiction|]. intros (s0 & -> & -> & F). eauto.
Qed.

Lemma digit_no_quote s : forallb digit s = true -> ~ In 34 s.
Proof. intros D I. rewrite forallb_forall in D. apply D in I. discriminate. Qed.
Lemma plain_no_quote x v : plain x v -> x <> [] /\ ~ In 34 x.
Proof.
  intros (s1 & s2 & s3 & -> & R1 & R2 & R3). split.
  - pose proof (reads_cons _ _ R1). destruct s1; [contradiction|discriminate].
  - pose proof (digit_no_quote _ (reads_digits _ _ R1)). pose proof (digit_no_quote _ (reads_digits _ _ R2)). pose proof (digit_no_quote _ (reads_digits _ _ R3)).
    rewrite !in_app_iff. cbn. intuition discriminate.
Qed.
Lemma any_assigns prev s ps rest : fits r_any prev s ps rest -> assigns s /\ at_line prev = true.
Proof.
  intros F. apply fits_open in F as (w1 & w2 & s' & -> & B1 & B2 & A & ps' & F). split; auto.
  apply fits_run in F as (x & s2 & q & ps2 & -> & NE & D & F). apply fits_lit in F as (s3 & q2 & ps3 & -> & F).
  exists w1, w2, x, s3. repeat split; auto. now apply no_quote_spec.
Qed.
Lemma plain_parts prev s ps rest : fits r_plain prev s ps rest -> at_line prev = true /\
  exists w1 w2 x v r, s = js "version" ++ w1 ++ js "=" ++ w2 ++ [34] ++ x ++ [34] ++ r /\ blank w1 /\ blank w2 /\ plain x v.
Proof.
  intros F. apply fits_open in F as (w1 & w2 & s' & -> & B1 & B2 & A & ps' & F). split; auto.
  apply fits_run in F as (x1 & s2 & q & ps2 & -> & NE1 & D1 & F). apply fits_lit in F as (s3 & q2 & ps3 & -> & F).
  apply fits_run in F as (x2 & s4 & q4 & ps4 & -> & NE2 & D2 & F). apply fits_lit in F as (s5 & q5 & ps5 & -> & F).
  apply fits_run in F as (x3 & s6 & q6 & ps6 & -> & NE3 & D3 & F). apply fits_lit in F as (s7 & q7 & ps7 & -> & F).
  exists w1, w2, (x1 ++ js "." ++ x2 ++ js "." ++ x3), (value x1, value x2, value x3), s7.
  repeat split; auto; [now rewrite <- !app_assoc|].
  exists x1, x2, x3. cbn [fst snd]. auto using digits_read.
Qed.
Lemma plain_assigns prev s ps rest : fits r_plain prev s ps rest -> assigns s /\ at_line prev = true.
Proof.
  intros F. apply plain_parts in F as (A & w1 & w2 & x & v & r & -> & B1 & B2 & P). split; auto.
  apply plain_no_quote in P as [NE NQ]. exists w1, w2, x, r. auto.
Qed.

(** reading and replacing the first version *)
Lemma run_any prev x r : x <> [] -> ~ In 34 x -> exists c t, x = c :: t /\
  mt [Ch no_quote; Many no_quote; Lit [34]] prev (x ++ [34] ++ r) = Some ([[c]; t; [34]], r).
Proof.
  intros NE NQ. apply no_quote_spec in NQ. apply mt_some; try assumption.
  - intros c s' E. now injection E as <- _.
  - apply mt_lit. apply mt_end.
Qed.
Lemma run_plain prev x v r : plain x v -> exists c1 t1 c2 t2 c3 t3, x = (c1 :: t1) ++ js "." ++ (c2 :: t2) ++ js "." ++ (c3 :: t3) /\
  value (c1 :: t1) = fst (fst v) /\ value (c2 :: t2) = snd (fst v) /\ value (c3 :: t3) = snd v /\
  mt (r_num ++ [Lit (js ".")] ++ r_num ++ [Lit (js ".")] ++ r_num ++ [Lit [34]]) prev (x ++ [34] ++ r) =
  Some ([[c1]; t1; js "."; [c2]; t2; js "."; [c3]; t3; [34]], r).
Proof.
  intros (s1 & s2 & s3 & -> & R1 & R2 & R3).
  pose proof (reads_digits _ _ R1) as D1. pose proof (reads_digits _ _ R2) as D2. pose proof (reads_digits _ _ R3) as D3.
  pose proof (reads_cons _ _ R1) as N1. pose proof (reads_cons _ _ R2) as N2. pose proof (reads_cons _ _ R3) as N3.
  apply reads_value in R1, R2, R3. rewrite <- !app_assoc. unfold r_num. cbn [app].
  assert (M3 : forall q, exists c t, s3 = c :: t /\ mt [Ch digit; Many digit; Lit [34]] q (s3 ++ [34] ++ r) = Some ([[c]; t; [34]], r)).
  { intros q. apply mt_some; try assumption; [intros c s' E; now injection E as <- _|]. apply mt_lit. apply mt_end. }
  destruct (M3 (Some 46)) as (c3 & t3 & -> & E3). clear M3.
  assert (M2 : forall q, exists c t, s2 = c :: t /\ mt [Ch digit; Many digit; Lit (js "."); Ch digit; Many digit; Lit [34]] q (s2 ++ js "." ++ (c3 :: t3) ++ [34] ++ r) = Some ([[c]; t; js "."; [c3]; t3; [34]], r)).
  { intros q. apply mt_some; try assumption; [intros c s' E; now injection E as <- _|]. apply mt_lit. exact E3. }
  destruct (M2 (Some 46)) as (c2 & t2 & -> & E2). clear M2.
  assert (M1 : exists c t, s1 = c :: t /\ mt [Ch digit; Many digit; Lit (js "."); Ch digit; Many digit; Lit (js "."); Ch digit; Many digit; Lit [34]] prev (s1 ++ js "." ++ (c2 :: t2) ++ js "." ++ (c3 :: t3) ++ [34] ++ r) = Some ([[c]; t; js "."; [c2]; t2; js "."; [c3]; t3; [34]], r)).
  { apply mt_some; try assumption; [intros c s' E; now injection E as <- _|]. apply mt_lit. exact E2. }
  destruct M1 as (c1 & t1 & -> & E1). exists c1, t1, c2, t2, c3, t3. auto 6.
Qed.

Lemma version_first R tl pre x post : version_at pre x post ->
  R = r_open ++ tl ->
  (forall prev s ps rest, fits R prev s ps rest -> assigns s /\ at_line prev = true) ->
  forall ps r, post = 34 :: r -> mt tl (Some 34) (x ++ [34] ++ r) = Some (ps, r) ->
  exists b w1 w2, pre = b ++ js "version" ++ w1 ++ js "=" ++ w2 ++ [34] /\
  exec R (pre ++ x ++ post) = Some (b, [] :: js "version" :: w1 :: js "=" :: w2 :: [34] :: ps, r).
Proof.
  intros (b & w1 & w2 & r & -> & -> & LS & B1 & B2 & NE & NQ & FST) -> SND ps r' E M. injection E as <-.
  exists b, w1, w2. split; auto. unfold exec.
  assert (E2 : (b ++ js "version" ++ w1 ++ js "=" ++ w2 ++ [34]) ++ x ++ 34 :: r = b ++ (js "version" ++ w1 ++ js "=" ++ w2 ++ [34] ++ x ++ [34] ++ r)).
  { rewrite <- !app_assoc. reflexivity. }
  rewrite E2. apply find_first.
  - intros b1 b2 -> NE2. apply mt_not. intros ps' rest F. apply SND in F as [A L].
    apply (FST b1 b2 (b2 ++ js "version" ++ w1 ++ js "=" ++ w2 ++ [34] ++ x ++ [34] ++ r)); auto.
    + now apply line_start_spec.
    + rewrite E2. now rewrite <- app_assoc.
  - apply mt_open; auto. now apply line_start_spec.
Qed.

Lemma subst_version m b a c1 c2 v : v <> [] -> forallb digit (firstn 1 v) = true -> ~ In 36 v ->
  subst m b a [c1; c2] (js "$1" ++ v ++ js "$2") = c1 ++ v ++ c2.
Proof.
  intros NE D ND. destruct v as [|d v]; [contradiction|]. cbn in D. rewrite andb_true_r in D.
  assert (T : forall u, ~ In 36 u -> subst m b a [c1; c2] (u ++ js "$2") = u ++ c2).
  { clear. induction u as [|c u IH]; intros NI.
    - change (c2 ++ [] = c2). apply app_nil_r.
    - cbn [app subst]. destruct (N.eqb_spec c 36) as [->|_]; [exfalso; apply NI; now left|]. rewrite IH; auto. intros I. apply NI. now right. }
  pose proof (T (d :: v) ND) as T1. cbn [app] in T1. 
  change (js "$1" ++ (d :: v) ++ js "$2") with (36 :: 49 :: d :: (v ++ js "$2")).
  remember (d :: v ++ js "$2") as u eqn:EU. cbn [subst]. change (36 =? 36) with true. cbn iota.
  change (49 =? 36) with false. change (49 =? 38) with false. change (49 =? 96) with false. change (49 =? 39) with false.
  change (digit 49) with true. cbn iota. change (num 49) with 1%nat. cbn [nth_error]. rewrite T1. subst u. rewrite D.
  assert (K : exists k, (10 * 1 + num d)%nat = Datatypes.S (Datatypes.S (Datatypes.S k))) by (exists (7 + num d)%nat; lia).
  destruct K as [k ->]. cbn [nth_error]. destruct k; reflexivity.
Qed.

Lemma dotted_plain a b c : plain (dotted a b c) (a, b, c).
Proof. exists (dec a), (dec b), (dec c). cbn [fst snd]. auto using dec_reads. Qed.
Lemma plain_head x v : plain x v -> forallb digit (firstn 1 x) = true /\ ~ In 36 x.
Proof.
  intros (s1 & s2 & s3 & -> & R1 & R2 & R3).
  pose proof (reads_digits _ _ R1) as D1. pose proof (reads_digits _ _ R2) as D2. pose proof (reads_digits _ _ R3) as D3.
  pose proof (reads_cons _ _ R1) as N1. split.
  - destruct s1 as [|c s1]; [contradiction|]. cbn in *. rewrite andb_true_r. now destruct (digit c).
  - rewrite forallb_forall in D1, D2, D3. rewrite !in_app_iff. cbn. intros [I|[[I|[]]|[I|[[I|[]]|I]]]]; try discriminate; [apply D1 in I|apply D2 in I|apply D3 in I]; discriminate.
Qed.

Lemma put_version_ok pre x post y v : version_at pre x post -> plain y v -> put_version y (pre ++ x ++ post) = pre ++ y ++ post.
Proof.
  intros V P. pose proof V as (b0 & w01 & w02 & r & _ & -> & _ & _ & _ & NE & NQ & _).
  destruct (run_any (Some 34) x r NE NQ) as (c & t & Ex & M).
  destruct (version_first r_any _ pre x (34 :: r) V eq_refl any_assigns _ r eq_refl M) as (b & w1 & w2 & Ep & E).
  unfold put_version. rewrite E. unfold pieces. cbn [firstn skipn List.concat]. rewrite ?app_nil_r.
  destruct (plain_head _ _ P) as [D ND]. rewrite subst_version; auto; [|now apply plain_no_quote in P].
  rewrite Ep. cbn [app]. rewrite <- !app_assoc. cbn [app]. reflexivity.
Qed.
Lemma current_ok pre x post v log es : version_at pre x post -> plain x v -> exact v ->
  current_version (Repo (Some (pre ++ x ++ post)) log es) = Got v.
Proof.
  intros V P (X1 & X2 & X3). pose proof V as (b0 & w01 & w02 & r & _ & -> & _).
  destruct (run_plain (Some 34) x v r P) as (c1 & t1 & c2 & t2 & c3 & t3 & Ex & V1 & V2 & V3 & M).
  destruct (version_first r_plain _ pre x (34 :: r) V eq_refl plain_assigns _ r eq_refl M) as (b & w1 & w2 & Ep & E).
  unfold current_version. cbn [cargo]. rewrite E. unfold pieces. cbn [firstn skipn List.concat app]. rewrite ?app_nil_r.
  unfold parse_int. rewrite V1, V2, V3. rewrite (proj2 (N.ltb_lt _ _) X1), (proj2 (N.ltb_lt _ _) X2), (proj2 (N.ltb_lt _ _) X3).
  now destruct v as [[? ?] ?].
Qed.
Lemma cargo_version_ok pre x post log es : version_at pre x post -> cargo_version (Repo (Some (pre ++ x ++ post)) log es) = Some x.
Proof.
  intros V. pose proof V as (b0 & w01 & w02 & r & _ & -> & _ & _ & _ & NE & NQ & _).
  destruct (run_any (Some 34) x r NE NQ) as (c & t & Ex & M).
  destruct (version_first r_any _ pre x (34 :: r) V eq_refl any_assigns _ r eq_refl M) as (b & w1 & w2 & Ep & E).
  unfold cargo_version. cbn [cargo]. rewrite E. unfold pieces. cbn [firstn skipn List.concat]. rewrite ?app_nil_r. now rewrite Ex.
Qed.

(** another version in its place is the first again *)
Lemma first_quote (u u' s s' : str) : u ++ 34 :: s = u' ++ 34 :: s' -> ~ In 34 u -> ~ In 34 u' -> u = u' /\ s = s'.
Proof.
  revert u'. induction u as [|c u IH]; intros [|d u'] E N1 N2; cbn in E.
  - injection E as ->. auto.
  - injection E as <- _. exfalso. apply N2. now left.
  - injection E as -> _. exfalso. apply N1. now left.
  - injection E as -> E2. destruct (IH u' E2) as [-> ->]; auto; intros I; [apply N1|apply N2]; now right.
Qed.
Lemma quote_split (u : str) : ~ In 34 u \/ exists u1 u2, u = u1 ++ 34 :: u2 /\ ~ In 34 u1.
Proof.
  induction u as [|c u IH]; [left; auto|]. destruct (N.eqb_spec c 34) as [->|NE].
  - right. exists [], u. auto.
  - destruct IH as [NI|(u1 & u2 & -> & NI)].
    + left. intros [E|I]; auto.
    + right. exists (c :: u1), u2. split; auto. intros [E|I]; auto.
Qed.
Lemma blank_quote w : blank w -> ~ In 34 w.
Proof. unfold blank. rewrite Forall_forall. intros B I. apply B in I. discriminate. Qed.
Lemma open_once (b2 w1 w2 w1' w2' : str) : blank w1' -> blank w2' ->
  b2 ++ js "version" ++ w1 ++ js "=" ++ w2 = js "version" ++ w1' ++ js "=" ++ w2' -> b2 = [].
Proof.
  intros B1 B2 E. destruct b2 as [|c b2]; auto. exfalso.
  (** the letter v is found again after the first character *)
  assert (I : In 118 (tl (js "version" ++ w1' ++ js "=" ++ w2'))).
  { rewrite <- E. cbn [tl app]. apply in_app_iff. right. now left. }
  change (tl (js "version" ++ w1' ++ js "=" ++ w2')) with (js "ersion" ++ w1' ++ js "=" ++ w2') in I.
  rewrite !in_app_iff in I. unfold blank in *. rewrite Forall_forall in B1, B2. destruct I as [I|[I|[I|I]]].
  - cbn in I. intuition discriminate.
  - apply B1 in I. discriminate.
  - cbn in I. intuition discriminate.
  - apply B2 in I. discriminate.
Qed.
Lemma version_at_other pre x post y : version_at pre x post -> y <> [] -> ~ In 34 y -> version_at pre y post.
Proof.
  intros (b & w1 & w2 & r & -> & -> & LS & B1 & B2 & NE & NQ & FST) NEy NQy.
  exists b, w1, w2, r. repeat split; auto. intros b1 b2 s -> NE2 LS1 E (w1' & w2' & z & q & -> & B1' & B2' & NEz & NQz).
  rewrite <- !app_assoc in E. apply app_inv_head in E.
  set (core := b2 ++ js "version" ++ w1 ++ js "=" ++ w2).
  assert (E' : core ++ 34 :: y ++ 34 :: r = (js "version" ++ w1' ++ js "=" ++ w2') ++ 34 :: z ++ 34 :: q).
  { unfold core. rewrite <- !app_assoc. exact E. }
  assert (NQo : ~ In 34 (js "version" ++ w1' ++ js "=" ++ w2')).
  { rewrite !in_app_iff. apply blank_quote in B1', B2'. cbn. intuition discriminate. }
  destruct (quote_split core) as [NI|(u1 & u2 & EC & NI)].
  - destruct (first_quote _ _ _ _ E' NI NQo) as [EO _]. unfold core in EO. apply open_once in EO; auto.
  - rewrite EC, <- app_assoc in E'. cbn [app] in E'. destruct (first_quote _ _ _ _ E' NI NQo) as [EO ER]. subst u1.
    destruct (quote_split u2) as [NI2|(v1 & v2 & EV & NI2)].
    + destruct (first_quote _ _ _ _ ER NI2 NQz) as [-> _].
      apply (FST b1 b2 (core ++ 34 :: x ++ 34 :: r) eq_refl NE2 LS1).
      { unfold core. rewrite <- !app_assoc. reflexivity. }
      exists w1', w2', z, (x ++ 34 :: r). repeat split; auto. rewrite EC. rewrite <- !app_assoc. reflexivity.
    + rewrite EV, <- app_assoc in ER. cbn [app] in ER. destruct (first_quote _ _ _ _ ER NI2 NQz) as [-> _].
      apply (FST b1 b2 (core ++ 34 :: x ++ 34 :: r) eq_refl NE2 LS1).
      { unfold core. rewrite <- !app_assoc. reflexivity. }
      exists w1', w2', z, (v2 ++ 34 :: x ++ 34 :: r). repeat split; auto. rewrite EC, EV, <- !app_assoc. cbn [app]. rewrite <- !app_assoc. reflexivity.
Qed.
Lemma asks_kind arg v w : asks arg v w -> exists k, kind_of arg = Some k /\ plain (new_version v k) w /\ later v w.
Proof.
  unfold later. destruct 1; [exists Major|exists Minor|exists Patch]; (split; [reflexivity|]; split; [apply dotted_plain|cbn [fst snd]; lia]).
Qed.

(** ** C89 *)
Lemma L_C89_bump arg pre x post v w log es : asks arg v w -> version_at pre x post -> plain x v -> exact v ->
  later v w /\ exists y, plain y w /\ version_at pre y post /\
  bump_version arg false (Repo (Some (pre ++ x ++ post)) log es) = (Repo (Some (pre ++ y ++ post)) log es, Exit0).
Proof.
  intros A V P X. destruct (asks_kind _ _ _ A) as (k & K & PY & L). split; auto. exists (new_version v k). split; auto.
  destruct (plain_no_quote _ _ PY). split; [eapply version_at_other; eauto|].
  unfold bump_version. rewrite K, (current_ok _ _ _ v); auto. cbn [update_cargo cargo chlog entries]. now rewrite (put_version_ok _ _ _ _ w).
Qed.
Lemma L_C89_reads pre x post v log es : version_at pre x post -> plain x v -> exact v ->
  current_version (Repo (Some (pre ++ x ++ post)) log es) = Got v /\ cargo_version (Repo (Some (pre ++ x ++ post)) log es) = Some x.
Proof. intros. split; [now apply current_ok|now apply cargo_version_ok]. Qed.
Lemma L_C89_no_version arg dry t : (forall f, cargo t = Some f -> no_plain f) -> bump_version arg dry t = (t, Exit1).
Proof.
  intros W. unfold bump_version. destruct (kind_of arg); auto.
  assert (E : current_version t = Fails).
  { unfold current_version. destruct (cargo t) as [f|]; auto. specialize (W f eq_refl).
    destruct (exec r_plain f) as [[[b ps] rest]|] eqn:E; auto. exfalso. unfold exec in E.
    apply find_sound in E as (s & -> & M & _). apply mt_sound in M. apply plain_parts in M as (A & w1 & w2 & x & v & r & -> & B1 & B2 & P).
    apply (W b _ w1 w2 x v r eq_refl); auto. now apply line_start_spec. }
  now rewrite E.
Qed.
Lemma L_C89_bad_argument arg dry t : ~ In arg [js "major"; js "minor"; js "patch"] -> bump_version arg dry t = (t, Exit1).
Proof.
  intros NI. assert (SM : forall a b, same a b = true -> a = b).
  { induction a as [|c a IH]; intros [|d b]; cbn; try discriminate; auto. rewrite andb_true_iff, N.eqb_eq. intros [-> E]. f_equal. auto. }
  unfold bump_version, kind_of.
  destruct (same arg (js "major")) eqn:E1; [apply SM in E1; exfalso; apply NI; cbn; auto|].
  destruct (same arg (js "minor")) eqn:E2; [apply SM in E2; exfalso; apply NI; cbn; auto|].
  destruct (same arg (js "patch")) eqn:E3; [apply SM in E3; exfalso; apply NI; cbn; auto|]. reflexivity.
Qed.
Lemma L_C89_touches arg dry t : let '(t', e) := bump_version arg dry t in
  chlog t' = chlog t /\ entries t' = entries t /\ (dry = true \/ e <> Exit0 -> t' = t).
Proof.
  unfold bump_version. destruct (kind_of arg) as [k|]; [|auto]. destruct (current_version t) as [v| |]; auto.
  destruct dry; auto. unfold update_cargo. destruct (cargo t); auto. cbn. split; auto. split; auto. intros [E|NE]; [discriminate|contradiction].
Qed.

(** a manifest as cargo writes it, with a dependency in a table of its own *)
Definition ex_manifest (v1 v2 : string) : str := js "[package]
name = ""a""
version = """ ++ js v1 ++ js """

[dependencies.tap]
version = """ ++ js v2 ++ js """
".
(** What [r_any] finds first is the first version. *)
Lemma assigns_mt prev s : assigns s -> at_line prev = true -> mt r_any prev s <> None.
Proof.
  intros (w1 & w2 & x & r & -> & B1 & B2 & NE & NQ) A. destruct (run_any (Some 34) x r NE NQ) as (c & t & -> & M).
  unfold r_any. rewrite (mt_open _ prev w1 w2 _ _ _ A B1 B2 M). discriminate.
Qed.
Lemma version_at_found f b w1 w2 c t r : exec r_any f = Some (b, [[]; js "version"; w1; js "="; w2; [34]; [c]; t; [34]], r) ->
  f = (b ++ js "version" ++ w1 ++ js "=" ++ w2 ++ [34]) ++ (c :: t) ++ 34 :: r /\
  version_at (b ++ js "version" ++ w1 ++ js "=" ++ w2 ++ [34]) (c :: t) (34 :: r).
Proof.
  intros E. unfold exec in E. apply find_sound in E as (s & -> & M & FST). apply mt_sound in M.
  destruct M as (s0 & E0 & [_ A] & M). cbn [app] in E0. subst s0.
  destruct M as (s1 & -> & _ & s2 & -> & B1 & s3 & -> & _ & s4 & -> & B2 & s5 & -> & _ & s6 & -> & (c' & Ec & Qc) & s7 & -> & Qt & s8 & -> & _ & ER).
  injection Ec as <-. cbn [fits] in ER. subst s8. cbn [okp] in B1, B2, Qt. split.
  { rewrite <- !app_assoc. reflexivity. }
  exists b, w1, w2, r. rewrite !blank_spec. split; auto. split; auto. split; [now apply line_start_spec|]. split; auto. split; auto.
  split; [discriminate|]. split; [apply no_quote_spec; cbn [forallb]; now rewrite Qc, Qt|].
  intros b1 b2 s -> NE2 LS E2 AS. rewrite <- !app_assoc in E2. apply app_inv_head in E2.
  pose proof (FST b1 b2 eq_refl NE2) as N. apply line_start_spec in LS. apply (assigns_mt _ _ AS LS). rewrite <- E2. exact N.
Qed.
Lemma ex_version : version_at (js "[package]
name = ""a""
version = """) (js "0.1.9") (js """

[dependencies.tap]
version = ""1.0.1""
") /\ plain (js "0.1.9") (0, 1, 9) /\ exact (0, 1, 9).
Proof.
  split; [|split; [|repeat split]].
  - apply (version_at_found (ex_manifest "0.1.9" "1.0.1") (js "[package]
name = ""a""
") (js " ") (js " ") 48 (js ".1.9") (js "

[dependencies.tap]
version = ""1.0.1""
")). vm_compute. reflexivity.
  - exists (js "0"), (js "1"), (js "9"). split; [reflexivity|]. cbn [fst snd].
    split; [|split]; [apply (reads_one 0)|apply (reads_one 1)|apply (reads_one 9)]; lia.
Qed.
Lemma L_C89_nonvacuous : exists pre x post v w, version_at pre x post /\ plain x v /\ exact v /\ asks (js "patch") v w /\
  bump_version (js "patch") false (Repo (Some (ex_manifest "0.1.9" "1.0.1")) None None) =
  (Repo (Some (ex_manifest "0.1.10" "1.0.1")) None None, Exit0) /\ pre ++ x ++ post = ex_manifest "0.1.9" "1.0.1" /\ later v w.
Proof.
  destruct ex_version as (V & P & X). eexists _, _, _, (0, 1, 9), (0, 1, 10). split; [exact V|]. split; [exact P|]. split; [exact X|].
  split; [constructor|]. split; [vm_compute; reflexivity|]. split; [vm_compute; reflexivity|].
  unfold later. cbn [fst snd]. lia.
Qed.
(** The version read and the version replaced need not be the same one. *)
Lemma L_C89_other_line_refuted : exists pre x post, version_at pre x post /\
  bump_version (js "patch") false (Repo (Some (pre ++ x ++ post)) None None) =
  (Repo (Some (pre ++ js "1.0.2" ++ post)) None None, Exit0) /\ x = js "0.1.0-pre+beta.15" /\
  pre ++ x ++ post = ex_manifest "0.1.0-pre+beta.15" "1.0.1".
Proof.
  eexists _, _, _. split.
  - apply (version_at_found (ex_manifest "0.1.0-pre+beta.15" "1.0.1") (js "[package]
name = ""a""
") (js " ") (js " ") 48 (js ".1.0-pre+beta.15") (js "

[dependencies.tap]
version = ""1.0.1""
")). vm_compute. reflexivity.
  - split; [vm_compute; reflexivity|]. split; [vm_compute; reflexivity|]. vm_compute. reflexivity.
Qed.
(** The file the scripts read in the workflow, /repo/Cargo.toml, has no version. *)
Definition ex_workspace : str := js "[workspace]

members = [
    ""doublets-ffi"",
    ""doublets"",

    # dev
    ""dev-deps/mem-rs"",
    ""dev-deps/data-rs"",
    ""dev-deps/trees-rs"",

    # internal
    ""integration""
]
# in global rework
exclude = [
    ""doublets-decorators"",
]".
Lemma L_C89_workspace arg dry log es :
  bump_version arg dry (Repo (Some ex_workspace) log es) = (Repo (Some ex_workspace) log es, Exit1).
Proof.
  unfold bump_version. destruct (kind_of arg); vm_compute; reflexivity.
Qed.
