(** Runs of the workflow that are cancelled: concurrency, cancel-in-progress (ci.yml:23-25).  A run on a branch ends the
    one before it on that branch, wherever that is, so the runs on a branch come one after another, each
    cut somewhere or not.  Between them others push to the branch.  Outside the model: pushes while a run
    is under way, whose own push git then refuses (an answer of [git]). *)
From Coq Require Import Ascii String NArith List Bool Lia.
From Verif Require Import JsText Release Workflow.
Import ListNotations.
Open Scope N_scope.

(** A run that would give [r], cut when [n] of its commands took effect and no release was made: the step Version and
    commit (ci.yml:313-318, 380-385) or one of the steps after it (327-338, 387-398) is ended.  A command that was ended
    itself counts if it took effect.  A run cut earlier has done no command; one cut later is as one that is not. *)
Definition effects (n : nat) (r : result) : list (command * answer) := skipn (length (r_cmds r) - n) (r_cmds r).
Definition cut_site (n : nat) (s : site) (r : result) : site := if existsb is_push (effects n r) then r_site r else s.

(** What happens to a branch: runs, cut or not, and pushes of others that leave the manifest as it is. *)
Inductive happening :=
| Run (j : job) (cut : option nat)
| Pushed_by_others (log : option str) (l : option (list (str * option str))) (c : option str).
(** the branch afterwards, the releases made, the commands of each run that took effect, and what doublets/Cargo.toml was *)
Record past := Past { p_site : site; p_releases : list (str * str); p_runs : list (list (command * answer)); p_crates : list (option str) }.
Definition cons_release (o : option (str * str)) (l : list (str * str)) : list (str * str) := match o with Some p => p :: l | None => l end.
Fixpoint happened (l : list happening) (s : site) : past :=
  match l with
  | [] => Past s [] [] [crate s]
  | Run j None :: l' =>
      let r := run_job j s in let p := happened l' (r_site r) in
      Past (p_site p) (cons_release (r_release r) (p_releases p)) (rev (r_cmds r) :: p_runs p) (crate s :: p_crates p)
  | Run j (Some n) :: l' =>
      let r := run_job j s in let p := happened l' (cut_site n s r) in
      Past (p_site p) (p_releases p) (rev (effects n r) :: p_runs p) (crate s :: p_crates p)
  | Pushed_by_others log es c :: l' =>
      let p := happened l' (Site (Repo (cargo (files s)) log es) c) in
      Past (p_site p) (p_releases p) (p_runs p) (crate s :: p_crates p)
  end.
