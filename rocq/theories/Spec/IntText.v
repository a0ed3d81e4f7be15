(** What an integer option value means, as text.  Independent of the scanner. *)
From Coq Require Import ZArith List Ascii String Decimal DecimalString.
From Verif.Base Require Import CInt CStr.
Import ListNotations.
Open Scope list_scope.
Open Scope Z_scope.

(** A digit of base [b] (at most 16) and its value. *)
Definition digit (b : Z) (c : ascii) (d : Z) : Prop :=
  0 <= d < b /\
  (nth_error (lit "0123456789abcdef") (Z.to_nat d) = Some c \/
   nth_error (lit "0123456789ABCDEF") (Z.to_nat d) = Some c).

(** A non-empty sequence of digits and its value. *)
Inductive numeral (b : Z) : str -> Z -> Prop :=
| numeral_one c d : digit b c d -> numeral b [c] d
| numeral_more s v c d : numeral b s v -> digit b c d -> numeral b (s ++ [c]) (v * b + d).

Definition blank (w : str) : Prop :=
  Forall (fun c => In c [" "; "009"; "010"; "011"; "012"; "013"]%char) w.

Inductive sign : str -> Z -> Prop :=
| sign_none : sign [] 1
| sign_plus : sign ["+"%char] 1
| sign_minus : sign ["-"%char] (-1).

(** The prefixes 0x, 0o, 0b. *)
Inductive radix : str -> Z -> Prop :=
| radix_x : radix (lit "0x") 16 | radix_X : radix (lit "0X") 16
| radix_o : radix (lit "0o") 8  | radix_O : radix (lit "0O") 8
| radix_b : radix (lit "0b") 2  | radix_B : radix (lit "0B") 2.

(** Optional unit: kilobytes etc., in any case. *)
Inductive unit_text : str -> Z -> Prop :=
| unit_none : unit_text [] 1
| unit_kb u : In u (map lit ["KB"; "Kb"; "kB"; "kb"]%string) -> unit_text u 1024
| unit_mb u : In u (map lit ["MB"; "Mb"; "mB"; "mb"]%string) -> unit_text u (1024 * 1024)
| unit_gb u : In u (map lit ["GB"; "Gb"; "gB"; "gb"]%string) -> unit_text u (1024 * 1024 * 1024).

(** The documented format: [space] [sign] [0x|0o|0b] digits [unit] [space]. *)
Inductive plain_number : str -> Z -> Prop :=
| plain_dec w sg s ds v : blank w -> sign sg s -> numeral 10 ds v ->
    plain_number (w ++ sg ++ ds) (s * v)
| plain_radix w sg s p b ds v : blank w -> sign sg s -> radix p b -> numeral b ds v ->
    plain_number (w ++ sg ++ p ++ ds) (s * v).

(** What is accepted in addition: after 0x, 0o, 0b again space and a sign, and
    after 0x once more 0x. *)
Inductive number : str -> Z -> Prop :=
| number_dec w sg s ds v : blank w -> sign sg s -> numeral 10 ds v ->
    number (w ++ sg ++ ds) (s * v)
| number_radix w sg s p b w' sg' s' p' ds v :
    blank w -> sign sg s -> radix p b ->
    blank w' -> sign sg' s' -> p' = [] \/ (b = 16 /\ radix p' 16) -> numeral b ds v ->
    number (w ++ sg ++ p ++ w' ++ sg' ++ p' ++ ds) (s * (s' * v)).

Definition with_unit (num : str -> Z -> Prop) (s : str) (n : Z) : Prop :=
  exists t v u m w, s = t ++ u ++ w /\ num t v /\ unit_text u m /\ blank w /\ n = v * m.

(** [s] denotes the integer [n], in the documented format / in the format that
    is accepted. *)
Definition plain_int : str -> Z -> Prop := with_unit plain_number.
Definition int_text : str -> Z -> Prop := with_unit number.

Definition is_int (n : Z) : Prop := -2147483648 <= n <= 2147483647.

(** A second sign after the radix prefix that makes the inner number -2^63 or
    less, below a minus sign. *)
Definition negated_min (s : str) : Prop :=
  exists w p b w' p' ds v rest,
    s = w ++ lit "-" ++ p ++ w' ++ lit "-" ++ p' ++ ds ++ rest /\
    blank w /\ radix p b /\ blank w' /\ (p' = [] \/ (b = 16 /\ radix p' 16)) /\ numeral b ds v /\
    2 ^ 63 <= v /\ (forall c d, hd_error rest = Some c -> ~ digit b c d).

(** Decimal notation of an integer (Coq's own). *)
Definition decimal (n : Z) : str := lit (NilZero.string_of_int (Z.to_int n)).
