(** The release jobs of the workflow (.github/workflows/ci.yml:260-398), step by step, with the
    scripts of Release.v.  Outside the model: the jobs before (lint, test, build), the set-up of the
    tools, and what the runner does between steps. *)
From Coq Require Import Ascii String NArith List Bool Lia.
From Verif Require Import JsText Release.
Import ListNotations.
Open Scope N_scope.

(** What the branch main has: the files the scripts use, and doublets/Cargo.toml. *)
Record site := Site { files : repo; crate : option str }.
(** the answer of GitHub to a new release: create-github-release.mjs:95-106 *)
Inductive reply := Made | Exists | Refused.
(** What one run of a job meets: git within the script, git rev-parse in the shell, the build of
    the working tree, GitHub, and the date. *)
Record world := World { git : list (command * answer) -> command -> answer; there : str -> bool; builds : repo -> bool;
  github : str -> str -> reply; today : str }.
(** How a job ends; [Unclear] where a text is pasted into a command that does not stand for itself
    there, or a number is not exact. *)
Inductive job_end := Passed | Failed | Unclear.
(** what a run did: the branch afterwards, the release made (tag and notes), the commands of the script, the end *)
Record result := Result { r_site : site; r_release : option (str * str); r_cmds : list (command * answer); r_end : job_end }.

(** a step output: ${{ steps.ID.outputs.KEY }}, empty if it was not written, the last if it was written twice *)
Definition output (key : str) (o : outputs) : str :=
  fold_left (fun z e => if same (fst e) key then snd e else z) o [].
(** texts that stand for themselves between double quotes in the shell: no QUOTE, $, ` or \ *)
Definition quotable (s : str) : bool := forallb (fun c => negb ((c =? 34) || (c =? 36) || (c =? 96) || (c =? 92))) s.

(** up to the next QUOTE *)
Fixpoint unquoted (s : str) : str :=
  match s with
  | [] => []
  | c :: s' => if c =? 34 then [] else c :: unquoted s'
  end.
Definition opening : str := js "version = """.
Fixpoint grep_version (ls : list str) : str :=
  match ls with
  | [] => []
  | l :: ls' => match strip opening l with
                | Some r => if empty (unquoted r) then grep_version ls' else unquoted r
                | None => grep_version ls'
                end
  end.
(** grep -Po '(?<=^version = QUOTE)[^QUOTE]*' doublets/Cargo.toml | head -1: ci.yml:298, 324.  Empty matches are not
    printed; without the file there is no output, and the step goes on. *)
Definition shell_version (f : option str) : str :=
  match f with None => [] | Some f => grep_version (lines f) end.

(** find changelog.d -name *.md ! -name README.md | wc -l, if more than 0: ci.yml:372-373; the
    directory is taken to have no directories of its own *)
Definition any_fragment (t : repo) : bool :=
  match entries t with None => false | Some l => existsb (fun e => is_fragment (fst e)) l end.

(** The branch after the commands [h] of a run that began with the files [t] and left the files [t']:
    git add Cargo.toml CHANGELOG.md is all that is staged (version-and-commit.mjs:235), so the
    entries of changelog.d stay as they were. *)
Definition is_push (e : command * answer) : bool := match e with (Push, Returns) => true | _ => false end.
Definition after (t t' : repo) (h : list (command * answer)) : repo :=
  if existsb is_push h then Repo (cargo t') (chlog t') (entries t) else t.

(** the step Create GitHub Release: ci.yml:331-338, 391-398; create-github-release.mjs:45-110 *)
Definition create_release (w : world) (v : str) (log : option str) : option (str * str) * job_end :=
  if negb (quotable v) then (None, Unclear) else
  if empty v then (None, Failed) else
  let tag := js "v" ++ v in
  match github w tag (notes v log) with
  | Made => (Some (tag, notes v log), Passed)
  | Exists => (None, Passed)
  | Refused => (None, Failed)
  end.
Definition released (w : world) (s : site) (t' : repo) (h : list (command * answer)) (v : str) : result :=
  if builds w t' then let '(r, e) := create_release w v (chlog t') in Result s r h e
  else Result s None h Failed.

(** the job auto-release: ci.yml:260-338 *)
Definition auto (w : world) (s : site) : result :=
  let t := files s in
  match get_bump_type (js "patch") t with
  | (_, Exit1) => Result s None [] Failed
  | (_, Inexact) => Result s None [] Unclear
  | (o, Exit0) =>
      let x := shell_version (crate s) in
      if same (output (js "has_fragments") o) (js "true") then
        let d := version_and_commit (git w) (output (js "bump_type") o) [] (today w) t in
        let s' := Site (after t (d_repo d) (d_cmds d)) (crate s) in
        match d_end d with
        | Exit1 => Result s' None (d_cmds d) Failed
        | Inexact => Result s' None (d_cmds d) Unclear
        | Exit0 => released w s' (d_repo d) (d_cmds d) x
        end
      else if there w (js "v" ++ x) then Result s None [] Passed
      else released w s t [] x
  end.

(** the job manual-release with its inputs bump_type and description: ci.yml:341-398 *)
Definition manual (w : world) (arg desc : str) (s : site) : result :=
  let t := files s in
  match (if any_fragment t then collect (today w) t else (t, Exit0)) with
  | (_, Exit1) => Result s None [] Failed
  | (_, Inexact) => Result s None [] Unclear
  | (t1, Exit0) =>
      if negb (quotable desc) then Result s None [] Unclear else
      let d := version_and_commit (git w) arg desc (today w) t1 in
      let s' := Site (after t (d_repo d) (d_cmds d)) (crate s) in
      match d_end d with
      | Exit1 => Result s' None (d_cmds d) Failed
      | Inexact => Result s' None (d_cmds d) Unclear
      | Exit0 =>
          if same (output (js "version_committed") (d_out d)) (js "true") || same (output (js "already_released") (d_out d)) (js "true")
          then released w s' (d_repo d) (d_cmds d) (output (js "new_version") (d_out d))
          else Result s' None (d_cmds d) Passed
      end
  end.

(** Runs of jobs one after another, each on what the one before left on the branch. *)
Inductive job := Auto (w : world) | Manual (w : world) (arg desc : str).
Definition run_job (j : job) (s : site) : result := match j with Auto w => auto w s | Manual w arg desc => manual w arg desc s end.
Fixpoint run_jobs (l : list job) (s : site) : site * list (str * str) :=
  match l with
  | [] => (s, [])
  | j :: l' => let r := run_job j s in
               let '(s', rs) := run_jobs l' (r_site r) in
               (s', match r_release r with Some p => p :: rs | None => rs end)
  end.
