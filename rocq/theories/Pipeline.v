(** The workflow as a whole (.github/workflows/ci.yml): which jobs run for which event, after which
    others, and how they end.  Outside the model: what cargo, the tests and the actions do; they
    are oracles that answer success or failure. *)
From Coq Require Import Ascii String NArith List Bool Lia.
From Verif Require Import JsText Release Workflow.
Import ListNotations.
Open Scope N_scope.

(** The events: ci.yml:3-21.  A push to a branch, a pull request to a branch, and the workflow
    started by hand on a branch with its inputs. *)
Inductive event := Pushed (branch : str) | Pull (base : str) | Dispatched (branch bump desc : str).
Definition triggers (e : event) : bool :=
  match e with
  | Pushed b => same b (js "main")
  | Pull b => same b (js "main")
  | Dispatched _ _ _ => true
  end.

(** The jobs, in the order of the file: ci.yml:36, 82, 122, 155, 178, 217, 252, 260, 341 *)
Inductive name := Lint | Test | Build | Miri | Coverage | Changelog | Tests_pass | Auto_release | Manual_release.
Definition order : list name := [Lint; Test; Build; Miri; Coverage; Changelog; Tests_pass; Auto_release; Manual_release].
(** needs: ci.yml:125, 255, 262, 343 *)
Definition needs (j : name) : list name :=
  match j with
  | Build => [Lint; Test]
  | Tests_pass => [Lint; Test; Build; Coverage]
  | Auto_release => [Lint; Test; Build]
  | Manual_release => [Lint; Test; Build]
  | _ => []
  end.
(** if: ci.yml:159, 220, 263, 344 *)
Definition wanted (j : name) (e : event) : bool :=
  match j, e with
  | Miri, _ => false
  | Changelog, Pull _ => true
  | Changelog, _ => false
  | Auto_release, Pushed b => same b (js "main")
  | Auto_release, _ => false
  | Manual_release, Dispatched _ _ _ => true
  | Manual_release, _ => false
  | _, _ => true
  end.

(** the matrix of the job test: ci.yml:85-91 *)
Inductive os := Ubuntu | Macos | Windows.
Inductive flags := Native | Without_avx2.
Definition matrix : list (os * flags) :=
  [(Ubuntu, Native); (Ubuntu, Without_avx2); (Macos, Native); (Macos, Without_avx2); (Windows, Native); (Windows, Without_avx2)].
(** What the steps of a run meet: the set-up of each job (checkout, tools, cache), rustfmt, clippy, the
    files of the checkout, the tests, the build, the coverage, git diff of the pull request, and what
    the release jobs meet. *)
Record checks := Checks { ready : name -> bool; formatted : bool; linted : bool; cwd : str; tree : option (list node);
  tested : os -> flags -> bool; doc_tested : os -> flags -> bool; built : bool; covered : bool; diff : option str; the_world : world }.

(** the step of the job changelog: ci.yml:226-249.  The shell stops at git diff if that fails; the
    pipes end in wc and do not.  It says whether it warns, and whether it ends well. *)
Definition source_line (l : str) : bool :=
  starts (js "doublets/src/") l || starts (js "doublets-ffi/src/") l || starts (js "integration/src/") l.
Definition changelog_step (d : option str) (t : repo) : bool * bool :=
  match d with
  | None => (false, false)
  | Some names => (existsb source_line (lines names) && negb (any_fragment t), true)
  end.

(** How a job ends.  [Unsure] where the release jobs end in [Unclear]. *)
Inductive status := Success | Failure | Skipped | Unsure.
Definition is_success (x : status) : bool := match x with Success => true | _ => false end.
Definition verdict (b : bool) : status := if b then Success else Failure.
Definition of_end (e : job_end) : status := match e with Passed => Success | Failed => Failure | Unclear => Unsure end.
(** what the release job of the event does *)
Definition release_job (c : checks) (e : event) (s : site) : result :=
  match e with
  | Pushed _ => auto (the_world c) s
  | Dispatched _ bump desc => manual (the_world c) bump desc s
  | Pull _ => Result s None [] Passed
  end.
(** the steps of a job, if it runs: ci.yml:66-79, 115-119, 147-148, 206-214, 226-249, 257, 260-398 *)
Definition steps (c : checks) (e : event) (s : site) (j : name) : status :=
  if negb (ready c j) then Failure else
  match j with
  | Lint => verdict (formatted c && linted c && match check_sizes (cwd c) (tree c) with Exit0 => true | _ => false end)
  | Test => verdict (forallb (fun m => tested c (fst m) (snd m) && doc_tested c (fst m) (snd m)) matrix)
  | Build => verdict (built c)
  | Miri => Failure
  | Coverage => verdict (covered c)
  | Changelog => verdict (snd (changelog_step (diff c) (files s)))
  | Tests_pass => Success
  | Auto_release | Manual_release => of_end (r_end (release_job c e s))
  end.

(** A job runs if its condition holds and the jobs it needs ended well; it is skipped otherwise. *)
Definition name_eqb (a b : name) : bool :=
  match a, b with
  | Lint, Lint | Test, Test | Build, Build | Miri, Miri | Coverage, Coverage | Changelog, Changelog
  | Tests_pass, Tests_pass | Auto_release, Auto_release | Manual_release, Manual_release => true
  | _, _ => false
  end.
Definition status_of (l : list (name * status)) (j : name) : status :=
  match List.find (fun p => name_eqb (fst p) j) l with Some (_, x) => x | None => Skipped end.
Definition runs (e : event) (l : list (name * status)) (j : name) : bool :=
  forallb (fun n => is_success (status_of l n)) (needs j) && wanted j e.
Fixpoint statuses (c : checks) (e : event) (s : site) (todo : list name) (l : list (name * status)) : list (name * status) :=
  match todo with
  | [] => l
  | j :: todo' => statuses c e s todo' ((j, if runs e l j then steps c e s j else Skipped) :: l)
  end.

(** A run: how the jobs end, the warning of the job changelog, and what the release jobs did to the branch with
    the files [s].  Nothing if the event does not start the workflow. *)
Record outcome := Outcome { o_status : name -> status; o_warns : bool; o_site : site; o_release : option (str * str); o_cmds : list (command * answer) }.
Definition pipeline (c : checks) (e : event) (s : site) : outcome :=
  if negb (triggers e) then Outcome (fun _ => Skipped) false s None [] else
  let l := statuses c e s order [] in
  let ran j := runs e l j && ready c j in
  let r := if ran Auto_release || ran Manual_release then release_job c e s else Result s None [] Passed in
  Outcome (status_of l) (ran Changelog && fst (changelog_step (diff c) (files s))) (r_site r) (r_release r) (r_cmds r).
