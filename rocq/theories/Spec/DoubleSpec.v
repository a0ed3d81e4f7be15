(** C83: numbers with a fraction.  [strtod] stands for the function of that name: the number, and how many
    characters of the text it has read. *)
From Coq Require Import ZArith Bool List Ascii Arith.
From Verif.Base Require Import CInt CStr.
From Verif.Model Require Import Usage.
Import ListNotations.
Open Scope nat_scope.

Section Double.
Variable strtod : str -> Z * nat.
(** The C library reads no further than the text, and texts have no NUL. *)
Definition in_bounds (w : option str) : Prop := match w with Some t => snd (strtod t) <= List.length t /\ no_nul t | None => True end.
(** A word is a number if all of it was read; no word is fine where the value is optional. *)
Definition acceptable (w : option str) : bool :=
  match w with Some t => snd (strtod t) =? List.length t | None => true end.
Definition number (w : option str) : option Z := option_map (fun t => fst (strtod t)) w.

(** What each word is answered, with so much room left: 0, or 2 for one too many, or 5 for no number. *)
Fixpoint answers (room : nat) (words : list (option str)) : list Z :=
  match words, room with
  | [], _ => []
  | _ :: ws, O => 2%Z :: answers O ws
  | w :: ws, S r => if acceptable w then 0%Z :: answers r ws else 5%Z :: answers room ws
  end.
(** The words that count: the first [room] ones that are accepted. *)
Definition counted (room : nat) (words : list (option str)) : list (option str) := firstn room (filter acceptable words).
(** Their numbers, over what was there before. *)
Fixpoint over_old (ns : list (option Z)) (old : list Z) : list Z :=
  match ns, old with
  | n :: ns, o :: old => (match n with Some v => v | None => o end) :: over_old ns old
  | _, old => old
  end.

(** The parser hands an option one word after another. *)
Fixpoint scan_words (maxcount count : Z) (dval : list Z) (words : list (option str)) : cres (list Z * Z * list Z) :=
  match words with
  | [] => Val ([], count, dval)
  | w :: ws => cbind (dbl_scan strtod maxcount count dval w) (fun r =>
               let '(code, count, dval) := r in
               cbind (scan_words maxcount count dval ws) (fun r' =>
               let '(codes, count, dval) := r' in Val (code :: codes, count, dval)))
  end.
End Double.
