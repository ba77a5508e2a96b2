(** The scripts of the release workflow (scripts/*.mjs), function by function.  Outside the model:
    the loading of the packages use-m, lino-arguments and command-stream from the network, what is
    printed, and the times of the clock (the date is a parameter).  The files are texts: what
    readFileSync gives with utf-8. *)
From Coq Require Import Ascii String NArith List Bool Lia.
From Verif Require Import JsText.
Import ListNotations.
Open Scope N_scope.

(** The files the scripts use: Cargo.toml, CHANGELOG.md and the entries of changelog.d, each a name
    and its text; [None] for what is absent, or, in the directory, cannot be read (readFileSync throws). *)
Record repo := Repo { cargo : option str; chlog : option str; entries : option (list (str * option str)) }.
(** How a script ends: with an exit code; [Inexact] where a number leaves those that are exact. *)
Inductive ending := Exit0 | Exit1 | Inexact.
(** what is written to the outputs of the workflow *)
Definition outputs := list (str * str).
(** results of functions that may throw or end the script with code 1 *)
Inductive got (A : Type) := Got (x : A) | Fails | Rounds.
Arguments Got {A}. Arguments Fails {A}. Arguments Rounds {A}.

(** ** Versions (scripts/bump-version.mjs, scripts/version-and-commit.mjs) *)
(** /^version\s*=\s*QUOTE, common to the three expressions *)
Definition r_open : list item := [Bol; Lit (js "version"); Many space; Lit (js "="); Many space; Lit [34]].
Definition r_num : list item := [Ch digit; Many digit].
(** /^version\s*=\s*QUOTE(\d+)\.(\d+)\.(\d+)QUOTE/m: bump-version.mjs:54, version-and-commit.mjs:73 *)
Definition r_plain : list item := r_open ++ r_num ++ [Lit (js ".")] ++ r_num ++ [Lit (js ".")] ++ r_num ++ [Lit [34]].
(** /^(version\s*=\s*QUOTE)[^QUOTE]+(QUOTE)/m: bump-version.mjs:96, version-and-commit.mjs:115,
    collect-changelog.mjs:31 (with other groups) *)
Definition r_any : list item := r_open ++ [Ch no_quote; Many no_quote; Lit [34]].
Definition pieces (ps : list str) (i n : nat) : str := concat (firstn n (skipn i ps)).
(** parseInt(s, 10) of digits: exact below 2^53 *)
Definition parse_int (s : str) : got N := if value s <? 2 ^ 53 then Got (value s) else Rounds.
(** getCurrentVersion: bump-version.mjs:52-66, version-and-commit.mjs:71-85 *)
Definition current_version (t : repo) : got (N * N * N) :=
  match cargo t with
  | None => Fails
  | Some f => match exec r_plain f with
              | None => Fails
              | Some (_, ps, _) =>
                  match parse_int (pieces ps 6 2), parse_int (pieces ps 9 2), parse_int (pieces ps 12 2) with
                  | Got a, Got b, Got c => Got (a, b, c)
                  | _, _, _ => Rounds
                  end
              end
  end.
Inductive kind := Major | Minor | Patch.
(** the argument has to be one of the three: bump-version.mjs:41-46, version-and-commit.mjs:46-51 *)
Definition kind_of (arg : str) : option kind :=
  if same arg (js "major") then Some Major else if same arg (js "minor") then Some Minor
  else if same arg (js "patch") then Some Patch else None.
Definition dotted (a b c : N) : str := dec a ++ js "." ++ dec b ++ js "." ++ dec c.
(** calculateNewVersion: bump-version.mjs:74-87, version-and-commit.mjs:93-106; the sums are exact, being at most 2^53 *)
Definition new_version (v : N * N * N) (k : kind) : str :=
  let '(a, b, c) := v in
  match k with
  | Major => dotted (a + 1) 0 0
  | Minor => dotted a (b + 1) 0
  | Patch => dotted a b (c + 1)
  end.
(** the replacing of updateCargoToml: bump-version.mjs:93-100, version-and-commit.mjs:112-120 *)
Definition put_version (v f : str) : str :=
  match exec r_any f with
  | None => f
  | Some (b, ps, rest) =>
      b ++ subst (concat ps) b rest [pieces ps 0 6; pieces ps 8 1] (js "$1" ++ v ++ js "$2") ++ rest
  end.
Definition update_cargo (v : str) (t : repo) : option repo :=
  match cargo t with
  | None => None
  | Some f => Some (Repo (Some (put_version v f)) (chlog t) (entries t))
  end.
(** bump-version.mjs:41-46 and 102-119 *)
Definition bump_version (arg : str) (dry : bool) (t : repo) : repo * ending :=
  match kind_of arg with
  | None => (t, Exit1)
  | Some k =>
      match current_version t with
      | Fails => (t, Exit1)
      | Rounds => (t, Inexact)
      | Got v => if dry then (t, Exit0)
                 else match update_cargo (new_version v k) t with
                      | None => (t, Exit1)
                      | Some t' => (t', Exit0)
                      end
      end
  end.

(** ** Fragments (scripts/get-bump-type.mjs, scripts/collect-changelog.mjs) *)
(** the expression of the front matter, with the front matter and the body as groups: get-bump-type.mjs:64, collect-changelog.mjs:47, version-and-commit.mjs:142 *)
Definition r_front : list item :=
  [Bos; Lit (js "---"); Many space; Lit nl; Few anything; Lit (nl ++ js "---"); Many space; Lit nl; Many anything; Eos].
(** that of a line, key and value: get-bump-type.mjs:76 *)
Definition r_line : list item :=
  [Bos; Many space; Ch word; Many word; Many space; Lit (js ":"); Many space; Ch dot; Few dot; Many space; Eos].
(** the bump of parseFrontmatter: get-bump-type.mjs:63-83; a later line with the same key replaces an earlier one *)
Definition line_pair (l : str) : option (str * str) :=
  match exec r_line l with Some (_, ps, _) => Some (pieces ps 2 2, pieces ps 7 2) | None => None end.
Definition last_bump (ls : list str) : option str :=
  fold_left (fun o l => match line_pair l with
                        | Some (k, v) => if same k (js "bump") then Some v else o
                        | None => o
                        end) ls None.
Definition bump_of (content : str) : option str :=
  match exec r_front content with Some (_, ps, _) => last_bump (lines (pieces ps 4 1)) | None => None end.
(** BUMP_PRIORITY: get-bump-type.mjs:52-56; 0 for what it lacks. (Names every object has, such as
    constructor, give values that are greater than no number: the same as 0.) *)
Definition priority (b : str) : N :=
  if same b (js "patch") then 1 else if same b (js "minor") then 2 else if same b (js "major") then 3 else 0.
(** the filter and the sort of the fragments: get-bump-type.mjs:95-97, collect-changelog.mjs:63-65 *)
Definition is_fragment (name : str) : bool := ends_with (js ".md") name && negb (same name (js "README.md")).
Fixpoint insert (e : str * option str) (l : list (str * option str)) : list (str * option str) :=
  match l with
  | [] => [e]
  | e' :: l' => if leq (fst e) (fst e') then e :: l else e' :: insert e l'
  end.
Definition sorted_fragments (l : list (str * option str)) : list (str * option str) :=
  fold_right insert [] (filter (fun e => is_fragment (fst e)) l).
(** the loop of determineBumpType: get-bump-type.mjs:103-121 *)
Fixpoint highest (l : list (str * option str)) (p : N) (b : str) : got str :=
  match l with
  | [] => Got b
  | (_, None) :: _ => Fails
  | (_, Some content) :: l' =>
      match bump_of content with
      | Some x => if p <? priority x then highest l' (priority x) x else highest l' p b
      | None => highest l' p b
      end
  end.
(** determineBumpType: get-bump-type.mjs:89-124 *)
Definition determine (def : str) (t : repo) : got (str * N) :=
  match entries t with
  | None => Got (def, 0)
  | Some l => match sorted_fragments l with
              | [] => Got (def, 0)
              | fs => match highest fs 0 def with
                      | Got b => Got (b, N.of_nat (length fs))
                      | Fails => Fails
                      | Rounds => Rounds
                      end
              end
  end.
(** get-bump-type.mjs:140-152 *)
Definition get_bump_type (def : str) (t : repo) : outputs * ending :=
  match determine def t with
  | Got (b, n) => ([(js "bump_type", b); (js "fragment_count", dec n); (js "has_fragments", if 0 <? n then js "true" else js "false")], Exit0)
  | Fails => ([], Exit1)
  | Rounds => ([], Inexact)
  end.

(** ** The changelog (scripts/collect-changelog.mjs) *)
(** getVersionFromCargo: collect-changelog.mjs:29-39 *)
Definition cargo_version (t : repo) : option str :=
  match cargo t with
  | None => None
  | Some f => match exec r_any f with Some (_, ps, _) => Some (pieces ps 6 2) | None => None end
  end.
(** stripFrontmatter: collect-changelog.mjs:46-52, version-and-commit.mjs:141-147 *)
Definition strip_front (content : str) : str :=
  match exec r_front content with Some (_, ps, _) => trim (pieces ps 8 1) | None => trim content end.
(** the texts of the fragments, without empty ones: collect-changelog.mjs:67-75, version-and-commit.mjs:170-177 *)
Fixpoint texts (l : list (str * option str)) : option (list str) :=
  match l with
  | [] => Some []
  | (_, None) :: _ => None
  | (_, Some content) :: l' =>
      match texts l' with
      | None => None
      | Some ts => Some (if empty (strip_front content) then ts else strip_front content :: ts)
      end
  end.
(** collectFragments: collect-changelog.mjs:58-78 *)
Definition collect_fragments (t : repo) : option str :=
  match entries t with
  | None => Some []
  | Some l => match texts (sorted_fragments l) with Some ts => Some (join (nl ++ nl) ts) | None => None end
  end.
Definition marker : str := js "<!-- changelog-insert-here -->".
(** newEntry: collect-changelog.mjs:87, version-and-commit.mjs:184 *)
Definition entry (version date fragments : str) : str :=
  nl ++ js "## [" ++ version ++ js "] - " ++ date ++ nl ++ nl ++ fragments ++ nl.
(** before the first line that starts with a version heading, else at the end:
    collect-changelog.mjs:94-113, version-and-commit.mjs:188-204 *)
Fixpoint before_heading (e : str) (ls : list str) : option (list str) :=
  match ls with
  | [] => None
  | l :: ls' => if starts (js "## [") l then Some (e :: ls)
                else match before_heading e ls' with Some r => Some (l :: r) | None => None end
  end.
Definition at_heading (e content : str) : str :=
  match before_heading e (lines content) with Some ls => join nl ls | None => content ++ e end.
(** the file that is made when there is none: collect-changelog.mjs:118-127 *)
Definition fresh_log (e : str) : str := js "# Changelog

All notable changes to this project will be documented in this file.

The format is based on [Keep a Changelog](https://keepachangelog.com/en/1.0.0/),
and this project adheres to [Semantic Versioning](https://semver.org/spec/v2.0.0.html).

" ++ marker ++ nl ++ e ++ nl.
(** updateChangelog: collect-changelog.mjs:85-131 *)
Definition updated_log (e : str) (log : option str) : str :=
  match log with
  | None => fresh_log e
  | Some content => match cut marker content with
                    | Some _ => replace_text marker (marker ++ e) content
                    | None => at_heading e content
                    end
  end.
(** removeFragments: collect-changelog.mjs:136-150 *)
Definition without_fragments (l : list (str * option str)) : list (str * option str) :=
  filter (fun e => negb (is_fragment (fst e))) l.
(** collect-changelog.mjs:152-170 *)
Definition collect (date : str) (t : repo) : repo * ending :=
  match cargo_version t with
  | None => (t, Exit1)
  | Some v =>
      match collect_fragments t with
      | None => (t, Exit1)
      | Some fs => if empty fs then (t, Exit0)
                   else (Repo (cargo t) (Some (updated_log (entry v date fs) (chlog t))) (option_map without_fragments (entries t)), Exit0)
      end
  end.

(** ** The notes of a release (scripts/create-github-release.mjs) *)
(** the expression of lines 70-73, with the version escaped: its characters stand for themselves *)
Definition r_notes (v : str) : list item :=
  [Lit (js "## ["); Lit v; Lit (js "]"); Few dot; Lit nl; Few anything; Ahead (nl ++ js "## [")].
(** getChangelogForVersion: create-github-release.mjs:60-81 *)
Definition notes (v : str) (log : option str) : str :=
  match log with
  | None => js "Release v" ++ v
  | Some content => match exec (r_notes v) content with
                    | Some (_, ps, _) => trim (pieces ps 5 1)
                    | None => js "Release v" ++ v
                    end
  end.

(** ** Releasing (scripts/version-and-commit.mjs) *)
(** the commands it starts, in the words of git; [Throws] if awaiting one throws *)
Inductive command := Config_name | Config_mail | Rev_parse (tag : str) | Add | Diff
| Commit (msg : str) | Tag (tag msg : str) | Push | Push_tags.
Inductive answer := Returns | Throws.
(** what a run did: the files, the outputs, the commands with their answers, latest first, and the end *)
Record did := Did { d_repo : repo; d_out : outputs; d_cmds : list (command * answer); d_end : ending }.

(** collectChangelog: version-and-commit.mjs:153-209 *)
Definition collect_changelog (v date : str) (t : repo) : option repo :=
  match entries t with
  | None => Some t
  | Some l =>
      match texts (sorted_fragments l) with
      | None => None
      | Some ts =>
          let fs := join (nl ++ nl) ts in
          if empty fs then Some t
          else match chlog t with
               | None => Some t
               | Some content => Some (Repo (cargo t) (Some (at_heading (entry v date fs) content)) (entries t))
               end
      end
  end.
Section Run.
  (** the answer of a command, from the commands answered before it *)
  Variable git : list (command * answer) -> command -> answer.
  Definition ask (c : command) (h : list (command * answer)) : list (command * answer) := (c, git h c) :: h.
  Definition throws (h : list (command * answer)) (c : command) : bool :=
    match git h c with Throws => true | Returns => false end.
  (** a message with the description, if there is one: version-and-commit.mjs:250-252, 257-259 *)
  Definition message (head desc : str) : str := if empty desc then head else head ++ nl ++ nl ++ desc.
  (** main: version-and-commit.mjs:211-274 (and the check of the argument, 46-51) *)
  Definition version_and_commit (arg desc date : str) (t : repo) : did :=
    match kind_of arg with
    | None => Did t [] [] Exit1
    | Some k =>
        let h1 := ask Config_name [] in
        if throws [] Config_name then Did t [] h1 Exit1 else
        let h2 := ask Config_mail h1 in
        if throws h1 Config_mail then Did t [] h2 Exit1 else
        match current_version t with
        | Fails => Did t [] h2 Exit1
        | Rounds => Did t [] h2 Inexact
        | Got cur =>
            let v := new_version cur k in
            let tag := js "v" ++ v in
            let h3 := ask (Rev_parse tag) h2 in
            if negb (throws h2 (Rev_parse tag))
            then Did t [(js "already_released", js "true"); (js "new_version", v)] h3 Exit0 else
            match update_cargo v t with
            | None => Did t [] h3 Exit1
            | Some t1 =>
                match collect_changelog v date t1 with
                | None => Did t1 [] h3 Exit1
                | Some t2 =>
                    let h4 := ask Add h3 in
                    if throws h3 Add then Did t2 [] h4 Exit1 else
                    let h5 := ask Diff h4 in
                    if negb (throws h4 Diff)
                    then Did t2 [(js "version_committed", js "false"); (js "new_version", v)] h5 Exit0 else
                    let c := Commit (message (js "chore: release v" ++ v) desc) in
                    let h6 := ask c h5 in
                    if throws h5 c then Did t2 [] h6 Exit1 else
                    let g := Tag tag (message (js "Release v" ++ v) desc) in
                    let h7 := ask g h6 in
                    if throws h6 g then Did t2 [] h7 Exit1 else
                    let h8 := ask Push h7 in
                    if throws h7 Push then Did t2 [] h8 Exit1 else
                    let h9 := ask Push_tags h8 in
                    if throws h8 Push_tags then Did t2 [] h9 Exit1 else
                    Did t2 [(js "version_committed", js "true"); (js "new_version", v)] h9 Exit0
                end
            end
        end
    end.
End Run.

(** ** The size of files (scripts/check-file-size.mjs) *)
(** Entries of directories: regular files with their text ([None]: not readable), directories
    ([None]: not readable), others. *)
Inductive node :=
| File (name : str) (text : option str)
| Dir (name : str) (inside : option (list node))
| Other (name : str).
Definition name_of (n : node) : str := match n with File x _ | Dir x _ | Other x => x end.
(** join(dir, name) for a normalised directory and a name of an entry *)
Definition path (dir name : str) : str := if ends_with (js "/") dir then dir ++ name else dir ++ js "/" ++ name.
(** shouldExclude: check-file-size.mjs:16, 23-25 *)
Definition includes (l s : str) : bool := match cut l s with Some _ => true | None => false end.
Definition excluded (p : str) : bool := includes (js "target") p || includes (js ".git") p || includes (js "node_modules") p.
(** extname(name) is .rs: check-file-size.mjs:15, 47 *)
Definition rust_name (name : str) : bool := ends_with (js ".rs") name && Nat.ltb 3 (length name).
(** findRustFiles: check-file-size.mjs:32-55; the files with their paths and texts, [None] if a directory cannot be read *)
Fixpoint walk (dir : str) (n : node) : option (list (str * option str)) :=
  if excluded (path dir (name_of n)) then Some [] else
  match n with
  | File x t => Some (if rust_name x then [(path dir x, t)] else [])
  | Other _ => Some []
  | Dir x None => None
  | Dir x (Some ns) =>
      fold_right (fun m r => match walk (path dir x) m, r with Some a, Some b => Some (a ++ b) | _, _ => None end) (Some []) ns
  end.
Definition rust_files (cwd : str) (ns : list node) : option (list (str * option str)) :=
  fold_right (fun m r => match walk cwd m, r with Some a, Some b => Some (a ++ b) | _, _ => None end) (Some []) ns.
(** countLines: check-file-size.mjs:62-65 *)
Definition count_lines (text : str) : N := N.of_nat (length (lines text)).
(** the violations: check-file-size.mjs:71-82 *)
Fixpoint violations (l : list (str * option str)) : option (list (str * N)) :=
  match l with
  | [] => Some []
  | (_, None) :: _ => None
  | (p, Some text) :: l' =>
      match violations l' with
      | None => None
      | Some r => Some (if 1000 <? count_lines text then (p, count_lines text) :: r else r)
      end
  end.
(** check-file-size.mjs:67-100 *)
Definition check_sizes (cwd : str) (ns : option (list node)) : ending :=
  match ns with
  | None => Exit1
  | Some ns => match rust_files cwd ns with
               | None => Exit1
               | Some fs => match violations fs with
                            | None => Exit1
                            | Some [] => Exit0
                            | Some (_ :: _) => Exit1
                            end
               end
  end.
