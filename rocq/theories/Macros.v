(** Model of the procedural macros: specialize_for (doublets-ffi/ffi-attributes/src/lib.rs),
    env_value and env_type (doublets-ffi/env-decorators/src/lib.rs).

    Syntax trees are those of the crate [syn], reduced to what the macros look at.  Parsing
    is not modelled: items, types and names are given as trees and strings, and the call
    [.parse().unwrap()] on a name (lib.rs:133, 145) is taken to succeed. *)
From Coq Require Import NArith List Bool String Ascii.
From Verif Require Import Base.
Import ListNotations.
Open Scope string_scope.

(** syn::Type with the cases of ty_from_to (46-87).  [ROther] is any other type, [AParen] and
    [GOther] are the arguments that make the macro panic; all carry their text. *)
Inductive rty :=
| RArray (elem : rty) (len : N)
| RPath (p : rpath)
| RPtr (mutable : bool) (elem : rty)
| RRef (mutable : bool) (elem : rty)
| ROther (text : string)
with rpath := PNil | PCons (ident : string) (a : rargs) (p : rpath)
with rargs := ANone | AAngle (l : rgens) | AParen (text : string)
with rgens := GNil | GType (t : rty) (l : rgens) | GOther (text : string) (l : rgens).

Scheme rty_ind2 := Induction for rty Sort Prop
  with rpath_ind2 := Induction for rpath Sort Prop
  with rargs_ind2 := Induction for rargs Sort Prop
  with rgens_ind2 := Induction for rgens Sort Prop.
Combined Scheme rty_mutind from rty_ind2, rpath_ind2, rargs_ind2, rgens_ind2.

(** csharp_convention, 15-30 *)
Definition csharp_convention (s : string) : out string :=
  if s =? "i8" then Val "SByte" else
  if s =? "u8" then Val "Byte" else
  if s =? "i16" then Val "Int16" else
  if s =? "u16" then Val "UInt16" else
  if s =? "i32" then Val "Int32" else
  if s =? "u32" then Val "UInt32" else
  if s =? "i64" then Val "Int64" else
  if s =? "u64" then Val "UInt64" else Panic.

(** ty_from_to, 46-87 *)
Fixpoint ty_from_to (from to : string) (t : rty) : out rty :=
  match t with
  | RArray e _ => ty_from_to from to e
  | RPath p => let* p' := path_from_to from to p in Val (RPath p')
  | RPtr m e => let* e' := ty_from_to from to e in Val (RPtr m e')
  | RRef m e => let* e' := ty_from_to from to e in Val (RRef m e')
  | ROther _ => Panic
  end
with path_from_to (from to : string) (p : rpath) : out rpath :=
  match p with
  | PNil => Val PNil
  | PCons id a p' =>
      let id' := if id =? from then to else id in
      let* a' := args_from_to from to a in
      let* p'' := path_from_to from to p' in
      Val (PCons id' a' p'')
  end
with args_from_to (from to : string) (a : rargs) : out rargs :=
  match a with
  | ANone => Val ANone
  | AAngle l => let* l' := gens_from_to from to l in Val (AAngle l')
  | AParen _ => Panic (* todo!() *)
  end
with gens_from_to (from to : string) (l : rgens) : out rgens :=
  match l with
  | GNil => Val GNil
  | GType t l' => let* t' := ty_from_to from to t in let* l'' := gens_from_to from to l' in Val (GType t' l'')
  | GOther _ _ => Panic
  end.

(** The parts of a function item the macro reads (104-123, 148-175). *)
Inductive rgeneric := GenLifetime (n : string) | GenConst (n : string) | GenType (n : string).
Inductive rparam := Receiver | Typed (pat : string) (t : rty).
Record rfn := mkFn { f_ident : string; f_generics : list rgeneric; f_params : list rparam; f_output : option rty }.
(** MacroArgs, 32-44 (the only convention is csharp) *)
Record margs := mkArgs { m_types : list string; m_name : string }.
(** One exported function (177-184): its name, its parameters, its result ([None] for unit), and
    the call in its body: the function called, its type argument, and the arguments. *)
Record exported := mkExp {
  x_name : string; x_params : list (string * rty); x_output : option rty;
  x_callee : string; x_at : string; x_args : list string
}.

Fixpoint omap {A B} (f : A -> out B) (l : list A) : out (list B) :=
  match l with [] => Val [] | a :: l' => let* b := f a in let* m := omap f l' in Val (b :: m) end.

(** str::replace and the number of '*' *)
Definition star : ascii := "*"%char.
Fixpoint replace_star (pat s : string) : string :=
  match pat with
  | EmptyString => EmptyString
  | String c pat' => if Ascii.eqb c star then s ++ replace_star pat' s else String c (replace_star pat' s)
  end.
Fixpoint count_star (pat : string) : nat :=
  match pat with
  | EmptyString => O
  | String c pat' => if Ascii.eqb c star then S (count_star pat') else count_star pat'
  end.

(** 105-123 *)
Definition generic_name (g : rgeneric) : out string :=
  match g with GenLifetime _ => Panic | GenConst _ => Panic | GenType n => Val n end.
Definition generic_of (f : rfn) : out string :=
  let* l := omap generic_name (f_generics f) in
  match l with [n] => Val n | _ => Panic end.

(** 157-164 *)
Definition param_from_to (from to : string) (p : rparam) : out (string * rty) :=
  match p with Receiver => Panic | Typed pat t => let* t' := ty_from_to from to t in Val (pat, t') end.
(** the body of the loop, 131-184 *)
Definition specialize_one (f : rfn) (generic pat ty : string) : out exported :=
  let* suffix := csharp_convention ty in
  let* o := match f_output f with
            | None => Val None
            | Some t => let* t' := ty_from_to generic ty t in Val (Some t')
            end in
  let* ps := omap (param_from_to generic ty) (f_params f) in
  Val (mkExp (replace_star pat suffix) ps o (f_ident f) ty (map fst ps)).
(** specialize_for, 89-189: the functions added after the item itself *)
Definition specialize_for (m : margs) (f : rfn) : out (list exported) :=
  let* generic := generic_of f in
  if Nat.eqb (count_star (m_name m)) 1 then omap (specialize_one f generic (m_name m)) (m_types m) else Panic.

(** ** env-decorators *)
(** str::split_whitespace, for ASCII white space *)
Definition is_space (c : ascii) : bool :=
  let n := nat_of_ascii c in (Nat.leb 9 n && Nat.leb n 13) || Nat.eqb n 32.
Fixpoint words (s : string) (w : string) : list string :=
  let out := match w with EmptyString => [] | _ => [w] end in
  match s with
  | EmptyString => out
  | String c s' => if is_space c then (out ++ words s' "")%list else words s' (w ++ String c "")
  end.
Definition split_whitespace (s : string) : list string := words s "".

(** Token streams are lists of strings. *)
Definition toks := list string.
(** env_value, 22-37: the variable is empty when it is not set *)
Definition env_value (env : option string) (expr : toks) : toks :=
  fold_left (fun e name => (name :: "::" :: "new" :: "(" :: e ++ [")"])%list)
    (rev (split_whitespace (match env with Some s => s | None => "" end))) expr.
(** pat.replace('*', ty) on the tokens of the pattern *)
Definition fill (pat ty : toks) : toks := flat_map (fun t => if t =? "*" then ty else [t]) pat.
(** env_type, 60-78 *)
Definition env_type (env : option string) (pat default : toks) : toks :=
  fold_left (fun ty name => name :: fill pat ty)
    (rev (split_whitespace (match env with Some s => s | None => "" end))) default.
