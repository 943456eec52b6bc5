(** * String literals as byte strings (C++ string constants). *)
From Verif Require Import Base.
From Coq Require Strings.String.
Export Coq.Strings.String.StringSyntax.
Definition str (s : String.string) : bytes := String.list_byte_of_string s.
Arguments str s%string_scope.
