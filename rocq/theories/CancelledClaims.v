(** Proofs of the claims about runs that are cancelled (Cancelled.v). *)
From Coq Require Import Ascii String Arith NArith List Bool Lia Permutation Sorted.
From Verif Require Import JsText Release ReleaseVersion ReleaseNotes ReleaseLog ReleaseRun Workflow ReleaseJobs Cancelled.
Import ListNotations.
Open Scope N_scope.

(** ** Specification *)
(** One of the texts that doublets/Cargo.toml was gives the version [c]. *)
Definition a_crate_says (l : list (option str)) (c : str) : Prop := exists f, In (Some f) l /\ crate_says f c.
(** The run made the tag and sent it to the server. *)
Definition sent (tag : str) (run : list (command * answer)) : Prop := (exists m, In (Tag tag m, Returns) run) /\ In (Push_tags, Returns) run.
(** The branch has the manifest with the version [y], which reads [w]. *)
Definition branch_at (s : site) (pre y post : str) (w : N * N * N) : Prop :=
  version_at pre y post /\ plain y w /\ cargo (files s) = Some (pre ++ y ++ post).

(** ** Proofs *)
Lemma first_dot s1 s2 r1 r2 : ~ In 46 s1 -> ~ In 46 s2 -> s1 ++ 46 :: r1 = s2 ++ 46 :: r2 -> s1 = s2 /\ r1 = r2.
Proof.
  revert s2. induction s1 as [|c s1 IH]; intros [|d s2] A B E; cbn [app] in E.
  - injection E as ->. auto.
  - injection E as <- _. destruct B. now left.
  - injection E as -> _. destruct A. now left.
  - injection E as <- E. destruct (IH s2) as [-> ->]; auto; intros I; [apply A|apply B]; now right.
Qed.
Lemma reads_no_dot s n : reads s n -> ~ In 46 s.
Proof. intros H I. apply reads_digits in H. rewrite forallb_forall in H. apply H in I. discriminate I. Qed.
Lemma plain_one x v w : plain x v -> plain x w -> v = w.
Proof.
  intros (s1 & s2 & s3 & -> & A1 & A2 & A3) (t1 & t2 & t3 & E & B1 & B2 & B3). cbn [js] in E.
  change (s1 ++ 46 :: (s2 ++ 46 :: s3) = t1 ++ 46 :: (t2 ++ 46 :: t3)) in E.
  apply first_dot in E as [<- E]; [|eapply reads_no_dot; eauto|eapply reads_no_dot; eauto].
  apply first_dot in E as [<- <-]; [|eapply reads_no_dot; eauto|eapply reads_no_dot; eauto].
  apply reads_value in A1, A2, A3, B1, B2, B3. destruct v as [[a b] c], w as [[a' b'] c']. cbn [fst snd] in *. congruence.
Qed.
Lemma later_irrefl v : ~ later v v.
Proof. unfold later. lia. Qed.
Lemma tags_same (a b : str) : js "v" ++ a = js "v" ++ b -> a = b.
Proof. apply app_inv_head. Qed.

(** what the commands of the script say about the version *)
Lemma script_tag git arg desc date t pre x post v : version_at pre x post -> plain x v -> exact v -> cargo t = Some (pre ++ x ++ post) ->
  let d := version_and_commit git arg desc date t in
  d_cmds d = [] \/ exists w y, asks arg v w /\ plain y w /\
    (forall tag m a, In (Tag tag m, a) (d_cmds d) -> tag = js "v" ++ y) /\
    (forall a, In (Push, a) (d_cmds d) -> cargo (d_repo d) = Some (pre ++ y ++ post)).
Proof.
  intros V P X C. cbv zeta. destruct t as [c log es]. cbn [cargo] in C. subst c.
  destruct (version_and_commit git arg desc date _) as [r o c e] eqn:H. unfold version_and_commit in H.
  destruct (kind_of arg) as [k|] eqn:K; [|injection H as <- <- <- <-; now left]. right.
  destruct (kind_asks arg k v K) as (w & A & PY). rewrite (current_ok _ _ _ v) in H; auto. cbv iota in H. set (y := new_version v k) in *.
  assert (U : update_cargo y (Repo (Some (pre ++ x ++ post)) log es) = Some (Repo (Some (pre ++ y ++ post)) log es)).
  { cbn [update_cargo cargo chlog entries]. now rewrite (put_version_ok _ _ _ _ w). }
  exists w, y. split; [exact A|]. split; [exact PY|].
  repeat answer H.
  all: try (rewrite U in H; cbv iota in H; destruct (collect_changelog y date _) as [t2|] eqn:CC; [apply collected_cargo in CC; cbn [cargo] in CC|]; cbv iota in H; repeat answer H).
  all: injection H as <- <- <- <-; cbn [d_cmds d_repo cargo]; unfold ask; split.
  all: try (intros a I; exact CC).
  all: intros; repeat match goal with I : In _ (_ :: _) |- _ => destruct I as [I|I] | I : In _ [] |- _ => destruct I | I : _ = _ |- _ => discriminate I end.
  all: match goal with I : (_, _) = (_, _) |- _ => injection I as <- _ _; reflexivity end.
Qed.

(** one run, from a branch with a version *)
Lemma job_tags j s pre x post v : branch_at s pre x post v -> exact v ->
  let r := run_job j s in
  crate (r_site r) = crate s /\ (~ In (Push, Returns) (r_cmds r) -> r_site r = s) /\
  (r_cmds r = [] \/ exists arg w y, asks arg v w /\ plain y w /\ (forall tag m a, In (Tag tag m, a) (r_cmds r) -> tag = js "v" ++ y) /\
    (In (Push, Returns) (r_cmds r) -> cargo (files (r_site r)) = Some (pre ++ y ++ post))) /\
  (forall tag body, r_release r = Some (tag, body) -> (exists f c, crate s = Some f /\ crate_says f c /\ tag = js "v" ++ c) \/
     exists arg w y, asks arg v w /\ plain y w /\ tag = js "v" ++ y).
Proof.
  intros (V & P & C) X. cbv zeta.
  assert (AF : forall t0 d, In (Push, Returns) (d_cmds d) -> cargo (after t0 (d_repo d) (d_cmds d)) = cargo (d_repo d)).
  { intros t0 d I. unfold after. replace (existsb is_push (d_cmds d)) with true; [reflexivity|]. symmetry. apply existsb_exists. exists (Push, Returns). auto. }
  destruct j as [w|w arg desc]; cbn [run_job].
  - destruct (L_C95_kept w s) as (K1 & _ & K2). do 2 (split; [assumption|]). split.
    + unfold auto. destruct (get_bump_type _ _) as [o [| |]]; [|now left|now left]. destruct (same _ _).
      * destruct (script_tag (git w) (output (js "bump_type") o) [] (today w) (files s) pre x post v V P X C) as [E|(w' & y & S1 & S2 & S3 & S4)];
        set (d := version_and_commit _ _ _ _ _) in *.
        -- left. destruct (d_end d); auto. rewrite (proj2 (released_site _ _ _ _ _)). exact E.
        -- right. exists (output (js "bump_type") o), w', y. do 2 (split; auto). destruct (d_end d); [rewrite (proj2 (released_site _ _ _ _ _)), (proj1 (released_site _ _ _ _ _))| |]; cbn [r_cmds r_site files]; (split; [exact S3|]);
           intros I; rewrite AF by exact I; eauto.
      * left. destruct (there w _); [reflexivity|]. apply (proj2 (released_site _ _ _ _ _)).
    + intros tag body R. left. destruct (L_C95_release _ _ _ _ R) as (f' & x' & C' & X' & -> & _). eauto.
  - destruct (manual_kept w arg desc s) as (K1 & _ & K2). do 2 (split; [assumption|]). clear K1 K2.
    unfold manual. destruct (if any_fragment (files s) then collect (today w) (files s) else (files s, Exit0)) as [t1 e1] eqn:E1.
    assert (C1 : cargo t1 = Some (pre ++ x ++ post)).
    { rewrite <- C. destruct (any_fragment (files s)); [|now injection E1 as <- _]. rewrite <- (collect_cargo (today w) (files s)), E1. reflexivity. }
    destruct e1; [|split; [now left|discriminate]|split; [now left|discriminate]]. destruct (quotable desc); [|split; [now left|discriminate]]. cbn [negb].
    destruct (script_version (git w) arg desc (today w) t1 pre x post v V P X C1) as [_ S2].
    assert (T := script_tag (git w) arg desc (today w) t1 pre x post v V P X C1). cbv zeta in T.
    set (d := version_and_commit _ _ _ _ _) in *. set (s' := Site (after (files s) (d_repo d) (d_cmds d)) (crate s)).
    assert (T' : d_cmds d = [] \/ exists arg w y, asks arg v w /\ plain y w /\ (forall tag m a, In (Tag tag m, a) (d_cmds d) -> tag = js "v" ++ y) /\
      (In (Push, Returns) (d_cmds d) -> cargo (files s') = Some (pre ++ y ++ post))).
    { destruct T as [T|(w' & y & T1 & T2 & T3 & T4)]; [now left|right]. exists arg, w', y. do 3 (split; auto). intros I. unfold s'. cbn [files]. rewrite AF by exact I. eauto. }
    destruct (d_end d); [|split; [exact T'|discriminate]|split; [exact T'|discriminate]].
    destruct (_ || _); [|split; [exact T'|discriminate]]. rewrite (proj2 (released_site _ _ _ _ _)), (proj1 (released_site _ _ _ _ _)). split; [exact T'|].
    intros tag body R. apply release_made in R as ([= -> ->] & _). right. destruct (S2 eq_refl) as (w' & A & PY). eauto 6.
Qed.

Lemma effects_part n r : exists rest, r_cmds r = rest ++ effects n r.
Proof. exists (firstn (length (r_cmds r) - n) (r_cmds r)). symmetry. apply firstn_skipn. Qed.
Lemma effects_in n r e : In e (effects n r) -> In e (r_cmds r).
Proof. destruct (effects_part n r) as [rest E]. intros I. rewrite E. apply in_or_app. now right. Qed.
Lemma push_in h : existsb is_push h = true <-> In (Push, Returns) h.
Proof.
  split.
  - intros E. apply existsb_exists in E as ([c a] & I & E). destruct c, a; try discriminate E. exact I.
  - intros I. apply existsb_exists. exists (Push, Returns). auto.
Qed.

Lemma in_dec_push h : In (Push, Returns) h \/ ~ In (Push, Returns) h.
Proof. rewrite <- push_in. destruct (existsb is_push h); [now left|right; discriminate]. Qed.
(** the tags are sent after the branch *)
Lemma plan_order tag cm tm run p q a : begun (plan tag cm tm) run -> run = p ++ q -> In (Push_tags, a) p -> In (Push, Returns) p.
Proof.
  intros [->|(done & c & b & b' & rest & E & ->)] F I; [destruct p; [destruct I|discriminate F]|].
  assert (Q : q = []).
  { destruct q as [|e q] using rev_ind; [reflexivity|]. rewrite app_assoc in F. apply app_inj_tail in F as [-> _]. exfalso.
    assert (I' : In (Push_tags, a) (p ++ q)) by (apply in_or_app; now left). clear I. revert E I'. generalize (p ++ q). clear. intros done E I. unfold plan in E.
    do 9 (destruct done as [|? done]; [cbn [In] in I; intuition discriminate|cbn [app] in E; injection E as <- E]).
    destruct done; discriminate E. }
  subst q. rewrite app_nil_r in F. subst p. clear -E I. unfold plan in E.
  do 9 (destruct done as [|? done]; [cbn [app In] in *; injection E as <- <- _; intuition (try discriminate)|cbn [app] in E; injection E as <- E]).
  all: destruct done; discriminate E.
Qed.
Lemma job_plan j s : r_cmds (run_job j s) = [] \/ exists tag cm tm, begun (plan tag cm tm) (rev (r_cmds (run_job j s))).
Proof.
  destruct j as [w|w arg desc]; cbn [run_job].
  - unfold auto. destruct (get_bump_type _ _) as [o [| |]]; [|now left|now left]. destruct (same _ _).
    + right. destruct (L_C93_commands (git w) (output (js "bump_type") o) [] (today w) (files s)) as (_ & _ & v & cm & tm & _ & _ & B & _).
      set (d := version_and_commit _ _ _ _ _) in *. exists (js "v" ++ v), cm, tm. destruct (d_end d); rewrite ?(proj2 (released_site _ _ _ _ _)); exact B.
    + left. destruct (there w _); [reflexivity|]. apply (proj2 (released_site _ _ _ _ _)).
  - unfold manual. destruct (if any_fragment (files s) then collect (today w) (files s) else (files s, Exit0)) as [t1 [| |]]; [|now left|now left].
    destruct (quotable desc); [|now left]. cbn [negb]. right.
    destruct (L_C93_commands (git w) arg desc (today w) t1) as (_ & _ & v & cm & tm & _ & _ & B & _).
    set (d := version_and_commit _ _ _ _ _) in *. exists (js "v" ++ v), cm, tm. destruct (d_end d); [destruct (_ || _)| |]; rewrite ?(proj2 (released_site _ _ _ _ _)); exact B.
Qed.
Lemma sent_pushed n j s a : In (Push_tags, a) (effects n (run_job j s)) -> In (Push, Returns) (effects n (run_job j s)).
Proof.
  intros I. destruct (effects_part n (run_job j s)) as [rest E]. destruct (job_plan j s) as [N|(tag & cm & tm & B)].
  - apply effects_in in I. rewrite N in I. destruct I.
  - apply in_rev. apply in_rev in I. eapply plan_order; [exact B| |exact I]. rewrite E at 1. apply rev_app_distr.
Qed.

(** *** One run that is cut *)
Lemma cut_facts n j s pre x post v : branch_at s pre x post v -> exact v -> let r := run_job j s in
  crate (cut_site n s r) = crate s /\
  (cut_site n s r = s /\ ~ In (Push, Returns) (effects n r) \/
   In (Push, Returns) (effects n r) /\ cut_site n s r = r_site r /\ exists arg w y, asks arg v w /\ branch_at (r_site r) pre y post w /\
     forall tag m a, In (Tag tag m, a) (r_cmds r) -> tag = js "v" ++ y).
Proof.
  intros B X r. destruct (job_tags j s pre x post v B X) as (J1 & J2 & J3 & _). fold r in J1, J2, J3. destruct B as (V & P & C).
  unfold cut_site. destruct (existsb is_push (effects n r)) eqn:E.
  - apply push_in in E. split; [exact J1|]. right. split; [exact E|]. split; [reflexivity|].
    destruct J3 as [J3|(arg & w & y & A & PY & T & J3)]; [apply effects_in in E; rewrite J3 in E; destruct E|].
    exists arg, w, y. split; [exact A|]. split; [|exact T]. destruct (plain_no_quote _ _ PY) as [Y1 Y2].
    split; [eapply version_at_other; eauto|]. split; [exact PY|]. apply J3. now apply effects_in in E.
  - split; [reflexivity|]. left. split; [reflexivity|]. intros I. apply push_in in I. congruence.
Qed.
(** In whatever state a run is ended: it has done the first of its commands; the branch is as before, or as the whole run leaves it,
    with the next version; and a tag on the server is the one of the version that the branch then has. *)
Lemma L_C99_cut n j s pre x post v : branch_at s pre x post v -> exact v ->
  let r := run_job j s in let run := rev (effects n r) in let s' := cut_site n s r in
  (exists rest, rev (r_cmds r) = run ++ rest) /\ (length run <= n)%nat /\ crate s' = crate s /\
  (s' = s /\ ~ In (Push, Returns) run \/
   s' = r_site r /\ In (Push, Returns) run /\ exists arg w y, asks arg v w /\ branch_at s' pre y post w) /\
  forall tag, sent tag run -> exists arg w y, asks arg v w /\ branch_at s' pre y post w /\ tag = js "v" ++ y.
Proof.
  intros B X r run s'. destruct (cut_facts n j s pre x post v B X) as [F1 F2]. fold r s' in F1, F2.
  assert (IR : forall e, In e run <-> In e (effects n r)) by (intros e; symmetry; apply in_rev).
  split. { destruct (effects_part n r) as [rest E]. exists (rev rest). rewrite E at 1. apply rev_app_distr. }
  split. { unfold run. rewrite rev_length. unfold effects. rewrite skipn_length. lia. }
  split; [exact F1|]. split.
  - destruct F2 as [[-> N]|(I & E & arg & w & y & A & BY & _)]; [left|right].
    + split; [reflexivity|]. now rewrite IR.
    + split; [exact E|]. split; [now apply IR|]. exists arg, w, y. split; [exact A|]. now rewrite E.
  - intros tag ((m & T) & PT). apply IR in T, PT.
    destruct F2 as [[_ N]|(I & E & arg & w & y & A & BY & TG)].
    + destruct N. unfold r in PT |- *. eapply sent_pushed; exact PT.
    + exists arg, w, y. split; [exact A|]. split; [now rewrite E|]. eapply TG. eapply effects_in. exact T.
Qed.

(** *** Whatever happens *)
Lemma happened_versions : forall l s pre x post v, branch_at s pre x post v -> room_for v (length l) ->
  let p := happened l s in
  (exists y w, branch_at (p_site p) pre y post w /\ (w = v /\ y = x \/ later v w)) /\
  (forall tag body, In (tag, body) (p_releases p) -> (exists c, a_crate_says (p_crates p) c /\ tag = js "v" ++ c) \/
     exists y w, plain y w /\ later v w /\ tag = js "v" ++ y) /\
  (forall run tag m a, In run (p_runs p) -> In (Tag tag m, a) run -> exists y w, plain y w /\ later v w /\ tag = js "v" ++ y).
Proof.
  induction l as [|e l IH]; intros s pre x post v B R.
  - cbn. split; [exists x, v; auto|]. split; [intros ? ? []|intros ? ? ? ? []].
  - assert (X := room_exact _ _ R). cbn [length] in R.
    assert (UP : forall s1 (Q : option (str * str)) run0,
      (branch_at s1 pre x post v \/ exists arg w y, asks arg v w /\ branch_at s1 pre y post w) ->
      (forall tag body, Q = Some (tag, body) -> (exists f c, crate s = Some f /\ crate_says f c /\ tag = js "v" ++ c) \/ exists arg w y, asks arg v w /\ plain y w /\ tag = js "v" ++ y) ->
      (forall tag m a, In (Tag tag m, a) run0 -> exists arg w y, asks arg v w /\ plain y w /\ tag = js "v" ++ y) ->
      let p := happened l s1 in
      (exists y w, branch_at (p_site p) pre y post w /\ (w = v /\ y = x \/ later v w)) /\
      (forall tag body, In (tag, body) (cons_release Q (p_releases p)) -> (exists c, a_crate_says (crate s :: p_crates p) c /\ tag = js "v" ++ c) \/
         exists y w, plain y w /\ later v w /\ tag = js "v" ++ y) /\
      (forall run tag m a, In run (run0 :: p_runs p) -> In (Tag tag m, a) run -> exists y w, plain y w /\ later v w /\ tag = js "v" ++ y)).
    { intros s1 Q run0 BB HQ HR p.
      assert (ST : (exists y w, branch_at (p_site p) pre y post w /\ (w = v /\ y = x \/ later v w)) /\
        (forall tag body, In (tag, body) (p_releases p) -> (exists c, a_crate_says (p_crates p) c /\ tag = js "v" ++ c) \/ exists y w, plain y w /\ later v w /\ tag = js "v" ++ y) /\
        (forall run tag m a, In run (p_runs p) -> In (Tag tag m, a) run -> exists y w, plain y w /\ later v w /\ tag = js "v" ++ y)).
      { destruct BB as [BB|(arg & w & y & A & BB)]; [exact (IH s1 pre x post v BB (room_less _ _ R))|].
        destruct (IH s1 pre y post w BB (room_asks _ _ _ _ A R)) as ((z & u & Z1 & Z2) & Z3 & Z4). fold p in Z1, Z3, Z4.
        destruct (asks_kind _ _ _ A) as (_ & _ & _ & L).
        split. { exists z, u. split; [exact Z1|]. right. destruct Z2 as [[-> _]|Z2]; [exact L|eapply later_trans; eauto]. }
        split.
        - intros tag body I. destruct (Z3 tag body I) as [|(z' & u' & ? & ? & ->)]; [auto|]. right. exists z', u'. split; auto. split; auto. eapply later_trans; eauto.
        - intros run tag m a I J. destruct (Z4 run tag m a I J) as (z' & u' & ? & ? & ->). exists z', u'. split; auto. split; auto. eapply later_trans; eauto. }
      destruct ST as (S1 & S2 & S3). split; [exact S1|]. split.
      - intros tag body I.
        assert (K : In (tag, body) (p_releases p) \/ Q = Some (tag, body)) by (destruct Q; cbn [cons_release In] in I; [destruct I as [->|I]|]; auto).
        destruct K as [K|K].
        + destruct (S2 tag body K) as [(c & (f & F1 & F2) & ->)|Z]; [|right; exact Z]. left. exists c. split; [|reflexivity]. exists f. split; [now right|exact F2].
        + destruct (HQ tag body K) as [(f & c & F1 & F2 & ->)|(arg & w & y & A & PY & ->)].
          * left. exists c. split; [|reflexivity]. exists f. split; [left; exact F1|exact F2].
          * right. destruct (asks_kind _ _ _ A) as (_ & _ & _ & L). exists y, w. auto.
      - intros run tag m a [<-|I] J; [|eapply S3; eauto]. destruct (HR tag m a J) as (arg & w & y & A & PY & ->).
        destruct (asks_kind _ _ _ A) as (_ & _ & _ & L). exists y, w. auto. }
    destruct e as [j [n|]|log es c]; cbn [happened].
    + apply (UP (cut_site n s (run_job j s)) None).
      * destruct (cut_facts n j s pre x post v B X) as [_ [[-> _]|(_ & -> & arg & w & y & A & BY & _)]]; [now left|right; eauto].
      * discriminate.
      * intros tag m a I. apply in_rev in I. apply effects_in in I. destruct (job_tags j s pre x post v B X) as (_ & _ & [E|(arg & w & y & A & PY & T & _)] & _); [rewrite E in I; destruct I|].
        rewrite (T tag m a I). eauto 6.
    + destruct (job_tags j s pre x post v B X) as (_ & J2 & J3 & J4). apply (UP (r_site (run_job j s)) (r_release (run_job j s))).
      * destruct (in_dec_push (r_cmds (run_job j s))) as [I|I]; [|left; now rewrite (J2 I)]. right.
        destruct J3 as [E|(arg & w & y & A & PY & _ & C)]; [rewrite E in I; destruct I|]. exists arg, w, y. split; [exact A|].
        destruct B as (V & _ & _). destruct (plain_no_quote _ _ PY) as [Y1 Y2]. split; [eapply version_at_other; eauto|]. auto.
      * exact J4.
      * intros tag m a I. apply in_rev in I. destruct J3 as [E|(arg & w & y & A & PY & T & _)]; [rewrite E in I; destruct I|]. rewrite (T tag m a I). eauto 6.
    + assert (B' : branch_at (Site (Repo (cargo (files s)) log es) c) pre x post v) by exact B.
      destruct (UP (Site (Repo (cargo (files s)) log es) c) None [] (or_introl B')) as (U1 & U2 & U3); [discriminate|intros ? ? ? []|].
      split; [exact U1|]. split; [exact U2|]. intros run tag m a I. apply (U3 run tag m a). now right.
Qed.
(** Whatever happens, runs that are cut or not and pushes of others: the version of the manifest never goes back; a release is
    of a version that doublets/Cargo.toml had or of a later version than the manifest had at first; and so are the tags. *)
Lemma L_C99_versions l s pre x post v : branch_at s pre x post v -> room_for v (length l) ->
  let p := happened l s in
  (exists y w, branch_at (p_site p) pre y post w /\ (w = v /\ y = x \/ later v w)) /\
  (forall tag body, In (tag, body) (p_releases p) -> (exists c, a_crate_says (p_crates p) c /\ tag = js "v" ++ c) \/
     exists y w, plain y w /\ later v w /\ tag = js "v" ++ y) /\
  (forall run tag m a, In run (p_runs p) -> In (Tag tag m, a) run -> exists y w, plain y w /\ later v w /\ tag = js "v" ++ y).
Proof. apply happened_versions. Qed.

Lemma never_again l s pre y post w : branch_at s pre y post w -> room_for w (length l) -> let p := happened l s in
  (forall body, In (js "v" ++ y, body) (p_releases p) -> a_crate_says (p_crates p) y) /\
  (forall run m a, In run (p_runs p) -> ~ In (Tag (js "v" ++ y) m, a) run).
Proof.
  intros B R p. destruct (happened_versions l s pre y post w B R) as (_ & H2 & H3). fold p in H2, H3. destruct B as (_ & P & _).
  split.
  - intros body I. destruct (H2 _ _ I) as [(c & A & E)|(z & u & Z1 & Z2 & E)]; apply tags_same in E; subst; [exact A|].
    rewrite (plain_one _ _ _ P Z1) in Z2. destruct (later_irrefl _ Z2).
  - intros run m a I J. destruct (H3 _ _ _ _ I J) as (z & u & Z1 & Z2 & E). apply tags_same in E. subst z.
    rewrite (plain_one _ _ _ P Z1) in Z2. destruct (later_irrefl _ Z2).
Qed.
(** A run is cut after its push.  Its version is never released by a later run, unless doublets/Cargo.toml gives it, and never
    tagged by a later run. *)
Lemma L_C99_lost n j s pre x post v l : branch_at s pre x post v -> room_for v (S (length l)) ->
  let r := run_job j s in In (Push, Returns) (effects n r) ->
  let p := happened l (cut_site n s r) in
  exists y w, later v w /\ branch_at (cut_site n s r) pre y post w /\
  (forall tag, sent tag (rev (effects n r)) -> tag = js "v" ++ y) /\
  (forall body, In (js "v" ++ y, body) (p_releases p) -> a_crate_says (p_crates p) y) /\
  (forall run m a, In run (p_runs p) -> ~ In (Tag (js "v" ++ y) m, a) run).
Proof.
  intros B R r I p. assert (X := room_exact _ _ R).
  destruct (cut_facts n j s pre x post v B X) as [_ [[_ N]|(_ & E & arg & w & y & A & BY & T)]]; [destruct (N I)|]. fold r in E, BY, T.
  exists y, w. destruct (asks_kind _ _ _ A) as (_ & _ & _ & L). split; [exact L|]. split; [now rewrite E|].
  split. { intros tag ((m & J) & _). eapply T. apply in_rev in J. eapply effects_in. exact J. }
  unfold p. rewrite E. eapply never_again; [exact BY|]. eapply room_asks; eauto.
Qed.
(** The same of a run that is not cut, and made no release after its push: the build failed, or GitHub refused it. *)
Lemma L_C99_failed j s pre x post v l : branch_at s pre x post v -> room_for v (S (length l)) ->
  let r := run_job j s in In (Push, Returns) (r_cmds r) ->
  let p := happened l (r_site r) in
  exists y w, later v w /\ branch_at (r_site r) pre y post w /\
  (forall body, In (js "v" ++ y, body) (p_releases p) -> a_crate_says (p_crates p) y) /\
  (forall run m a, In run (p_runs p) -> ~ In (Tag (js "v" ++ y) m, a) run).
Proof.
  intros B R r I p.
  assert (E : effects (length (r_cmds r)) r = r_cmds r) by (unfold effects; now rewrite Nat.sub_diag).
  destruct (L_C99_lost (length (r_cmds r)) j s pre x post v l B R) as (y & w & L & BY & _ & H); [fold r; now rewrite E|]. fold r in BY, H.
  replace (cut_site (length (r_cmds r)) s r) with (r_site r) in BY, H; [exists y, w; auto|].
  unfold cut_site. rewrite E. apply push_in in I. now rewrite I.
Qed.

(** *** Examples *)
Definition ex_manual : job := Manual ex_world (js "major") [].
Definition ex_cut (n : nat) : list (command * answer) := rev (effects n (run_job ex_manual (Site ex_rest (Some ex_crate)))).
Definition ex_cut_site (n : nat) : site := cut_site n (Site ex_rest (Some ex_crate)) (run_job ex_manual (Site ex_rest (Some ex_crate))).
Definition ex_life : list happening := [Run ex_manual (Some 9%nat); Pushed_by_others (Some ex_log) (Some ex_frags) (Some ex_crate);
  Run (Auto ex_world) (Some 3%nat); Run (Manual ex_world (js "minor") []) None].
Lemma ex_branch es c : exists pre post, branch_at (Site (Repo (Some (ex_manifest "0.1.9" "1.0.1")) (Some ex_log) es) c) pre (js "0.1.9") post (0, 1, 9) /\
  forall v, pre ++ js v ++ post = ex_manifest v "1.0.1".
Proof.
  destruct ex_version as (V & P & _). eexists _, _. split; [split; [exact V|]; split; [exact P|]|]; [vm_compute; reflexivity|].
  intros v. reflexivity.
Qed.
Lemma L_C99_nonvacuous : let s := Site ex_rest (Some ex_crate) in
  (exists pre post, branch_at s pre (js "0.1.9") post (0, 1, 9)) /\ exact (0, 1, 9) /\ room_for (0, 1, 9) (S (length ex_life)) /\
  (ex_cut_site 7 = s /\ length (ex_cut 7) = 7%nat /\ ~ In (Push, Returns) (ex_cut 7)) /\
  (In (Push, Returns) (ex_cut 8) /\ ~ In (Push_tags, Returns) (ex_cut 8) /\ cargo (files (ex_cut_site 8)) = Some (ex_manifest "1.0.0" "1.0.1")) /\
  (sent (js "v1.0.0") (ex_cut 9) /\ r_release (run_job ex_manual s) <> None) /\
  let p := happened ex_life s in
  map fst (p_releases p) = [js "v1.1.0"] /\ map (fun r => length r) (p_runs p) = [9; 3; 9]%nat /\ cargo (files (p_site p)) = Some (ex_manifest "1.1.0" "1.0.1").
Proof.
  cbv zeta. split. { destruct (ex_branch (entries ex_rest) (Some ex_crate)) as (pre & post & B & _). exists pre, post. exact B. }
  split; [repeat split|]. split; [repeat split; vm_compute; reflexivity|].
  split. { split; [vm_compute; reflexivity|]. split; [vm_compute; reflexivity|]. intros I. apply push_in in I. vm_compute in I. discriminate. }
  split. { split; [apply push_in; vm_compute; reflexivity|]. split; [|vm_compute; reflexivity].
    assert (F : forallb (fun e => match fst e with Push_tags => false | _ => true end) (ex_cut 8) = true) by (vm_compute; reflexivity).
    intros I. rewrite forallb_forall in F. apply F in I. discriminate I. }
  split. { split; [split; [eexists; vm_compute; auto 10|vm_compute; auto 10]|vm_compute; discriminate]. }
  split; [vm_compute; reflexivity|]. split; vm_compute; reflexivity.
Qed.
(** A version that is tagged on the server is released in the end, and a version on the branch is tagged.  Not if the run was
    cancelled before its release, or before it sent the tags: no later run makes up for it. *)
Lemma L_C99_refuted : let s := Site ex_rest (Some ex_crate) in let r := run_job ex_manual s in
  (sent (js "v1.0.0") (rev (effects 9 r)) /\
   forall l, room_for (1, 0, 0) (length l) -> let p := happened l (cut_site 9 s r) in
   ~ a_crate_says (p_crates p) (js "1.0.0") -> forall body, ~ In (js "v1.0.0", body) (p_releases p)) /\
  (cargo (files (cut_site 8 s r)) = Some (ex_manifest "1.0.0" "1.0.1") /\ ~ In (Push_tags, Returns) (effects 8 r) /\
   forall l, room_for (1, 0, 0) (length l) -> forall run m a, In run (p_runs (happened l (cut_site 8 s r))) -> ~ In (Tag (js "v1.0.0") m, a) run).
Proof.
  destruct L_C99_nonvacuous as (_ & _ & _ & _ & (N1 & N2 & N3) & (N4 & _) & _). cbv zeta.
  assert (B : forall s', cargo (files s') = Some (ex_manifest "1.0.0" "1.0.1") -> exists pre post, branch_at s' pre (js "1.0.0") post (1, 0, 0)).
  { intros s' C. destruct (ex_branch None None) as (pre & post & (V & _ & _) & E). exists pre, post.
    assert (P : plain (js "1.0.0") (1, 0, 0)) by (replace (js "1.0.0") with (dotted 1 0 0) by (vm_compute; reflexivity); apply dotted_plain).
    destruct (plain_no_quote _ _ P) as [Y1 Y2]. split; [eapply version_at_other; eauto|]. split; [exact P|]. now rewrite E. }
  split.
  - split; [exact N4|]. intros l R NC body I.
    destruct (B (cut_site 9 (Site ex_rest (Some ex_crate)) (run_job ex_manual (Site ex_rest (Some ex_crate))))) as (pre & post & BY); [vm_compute; reflexivity|].
    destruct (never_again l _ _ _ _ _ BY R) as [H _]. apply NC. apply (H body). exact I.
  - split; [exact N3|]. split; [intros I; apply N2; apply in_rev in I; exact I|]. intros l R run m a.
    destruct (B _ N3) as (pre & post & BY). destruct (never_again l _ _ _ _ _ BY R) as [_ H]. apply H.
Qed.
