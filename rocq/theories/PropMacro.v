(** Properties of the procedural macros (C61, C62). *)
From Coq Require Import NArith Arith List Bool String Ascii Lia.
From Verif Require Import MacroClaims Base Macros.
Import ListNotations.
Open Scope string_scope.

(** * C61 *)
Theorem C61_exported_functions_partial :
  forall m f T l,
  f_generics f = [GenType T] -> specialize_for m f = Val l -> faithful_params T f ->
  exists pre post, m_name m = pre ++ "*" ++ post /\
  Forall2 (fun ty x =>
    x_callee x = f_ident f /\ x_at x = ty /\ x_args x = map fst (x_params x) /\
    (exists n, csharp_convention ty = Val n /\ x_name x = pre ++ n ++ post) /\
    typed_params T ty (f_params f) (x_params x) /\
    x_output x = match f_output f with Some t => Some (at_type T ty t) | None => None end)
  (m_types m) l.
Proof. exact L_C61_exported_functions_partial. Qed.
Print Assumptions C61_exported_functions_partial.

(** Different types give different names. *)
Theorem C61_names_distinct :
  forall m f l,
  specialize_for m f = Val l -> NoDup (m_types m) -> NoDup (map x_name l).
Proof. exact L_C61_names_distinct. Qed.
Print Assumptions C61_names_distinct.

(** The macro expands exactly the items of this shape; on all others the build fails. *)
Theorem C61_expands_iff :
  forall m f,
  (exists l, specialize_for m f = Val l) <->
  (exists T, f_generics f = [GenType T]) /\ count_star (m_name m) = 1%nat /\
  (m_types m = [] \/
   (forall ty, In ty (m_types m) -> In ty integer_types) /\
   (forall p, In p (f_params f) -> exists pat t, p = Typed pat t /\ supported t) /\
   (forall t, f_output f = Some t -> supported t)).
Proof. exact L_C61_expands_iff. Qed.
Print Assumptions C61_expands_iff.

(** An array type loses its length: the exported function takes one element instead. *)
Theorem C61_array_lost :
  forall T to e n t',
  ty_from_to T to e = Val t' -> no_array T e ->
  ty_from_to T to (RArray e n) = Val (at_type T to e) /\ at_type T to e <> at_type T to (RArray e n).
Proof. exact L_C61_array_lost. Qed.
Print Assumptions C61_array_lost.

(** The interface expands, to 44 functions with different names, also different from the two
    written by hand (lib.rs:433, 449). *)
Theorem C61_library_names :
  exists l, expand_all ffi_library = Val l /\ List.length l = 44%nat /\
  NoDup ("setup_shared_logger" :: "init_fmt_logger" :: map x_name l) /\
  Forall (fun p => faithful_params "T" (snd p)) ffi_library.
Proof. exact L_C61_library_names. Qed.
Print Assumptions C61_library_names.

(** The full statement fails for a parameter of an array type. *)
Theorem C61_array_refuted :
  exists m f l x, f_generics f = [GenType "T"] /\ specialize_for m f = Val l /\ In x l /\
  x_at x = "u32" /\ f_params f = [Typed "pair" (RArray (ident "T") 2)] /\ x_params x = [("pair", ident "u32")].
Proof. exact L_C61_array_refuted. Qed.
Print Assumptions C61_array_refuted.

Theorem C61_nonvacuous :
  exists m f l, f_generics f = [GenType "T"] /\ faithful_params "T" f /\ specialize_for m f = Val l /\
  NoDup (m_types m) /\ (exists x, In x l /\ x_name x = "UInt16Links_Create" /\ x_at x = "u16" /\ x_output x = Some (ident "u16") /\
  In ("callback", gen1 "CUDCallback" "u16") (x_params x)) /\
  ty_from_to "T" "u8" (RRef false (ident "T")) = Val (RRef false (ident "u8")) /\ no_array "T" (RRef false (ident "T")).
Proof. exact L_C61_nonvacuous. Qed.
Print Assumptions C61_nonvacuous.

Theorem C62_value_has_type :
  forall env pat e0 t0,
  has_type pat e0 t0 (env_value env e0) (env_type env pat t0).
Proof. exact L_C62_value_has_type. Qed.
Print Assumptions C62_value_has_type.

(** The first name in the variable is the outermost decorator. *)
Theorem C62_first_is_outermost :
  forall env D names pat e0 t0,
  split_whitespace env = D :: names ->
  exists e t, has_type pat e0 t0 e t /\
    env_value (Some env) e0 = (D :: "::" :: "new" :: "(" :: e ++ [")"])%list /\ env_type (Some env) pat t0 = D :: fill pat t.
Proof. exact L_C62_first_is_outermost. Qed.
Print Assumptions C62_first_is_outermost.

Theorem C62_unset_is_default :
  forall pat e0 t0,
  env_value None e0 = e0 /\ env_type None pat t0 = t0.
Proof. exact L_C62_unset_is_default. Qed.
Print Assumptions C62_unset_is_default.

Theorem C62_names_are_words :
  forall s l,
  listed s l -> split_whitespace s = l.
Proof. exact L_C62_names_are_words. Qed.
Print Assumptions C62_names_are_words.

Theorem C62_every_variable :
  forall s,
  exists l, listed s l.
Proof. exact L_C62_every_variable. Qed.
Print Assumptions C62_every_variable.

Theorem C62_nonvacuous :
  env_value (Some " A  B ") ["s"] = ["A"; "::"; "new"; "("; "B"; "::"; "new"; "("; "s"; ")"; ")"] /\
  env_type (Some " A  B ") ["<"; "T"; ","; "*"; ">"] ["S"] = ["A"; "<"; "T"; ","; "B"; "<"; "T"; ","; "S"; ">"; ">"] /\
  split_whitespace " A  B " = ["A"; "B"] /\ listed " A  B " ["A"; "B"] /\
  split_whitespace ("A" ++ String "009" ("B" ++ String "010" "")) = ["A"; "B"].
Proof. exact L_C62_nonvacuous. Qed.
Print Assumptions C62_nonvacuous.
