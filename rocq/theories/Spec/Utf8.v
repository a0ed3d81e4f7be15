(** UTF-8. *)
From Coq Require Import List Ascii.
From Verif.Base Require Import CStr.
Import ListNotations.
Open Scope nat_scope.

(** UTF-8 (RFC 3629). *)
Definition tail_byte (c : ascii) : Prop := 128 <= nat_of_ascii c <= 191.
Inductive utf8 : str -> Prop :=
| utf8_end : utf8 []
| utf8_1 a s : nat_of_ascii a <= 127 -> utf8 s -> utf8 (a :: s)
| utf8_2 a b s : 194 <= nat_of_ascii a <= 223 -> tail_byte b -> utf8 s -> utf8 (a :: b :: s)
| utf8_3 a b c s : 224 <= nat_of_ascii a <= 239 -> tail_byte b -> tail_byte c ->
    (nat_of_ascii a = 224 -> 160 <= nat_of_ascii b) -> (nat_of_ascii a = 237 -> nat_of_ascii b <= 159) ->
    utf8 s -> utf8 (a :: b :: c :: s)
| utf8_4 a b c d s : 240 <= nat_of_ascii a <= 244 -> tail_byte b -> tail_byte c -> tail_byte d ->
    (nat_of_ascii a = 240 -> 144 <= nat_of_ascii b) -> (nat_of_ascii a = 244 -> nat_of_ascii b <= 143) ->
    utf8 s -> utf8 (a :: b :: c :: d :: s).
