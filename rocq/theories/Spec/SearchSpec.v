(** What searching for an expression means, on top of Spec/RegexSpec.v. *)
From Coq Require Import ZArith List.
From Verif.Base Require Import CStr.
From Verif.Spec Require Import RegexSpec.

(** The characters from [b] up to [e] are an instance, no instance begins earlier, and none that begins
    at [b] is longer or shorter. *)
Definition first_instance (icase : bool) (text : str) (r : rx) (b e : nat) : Prop :=
  lang icase text r b e /\
  (forall b' e', b' < b -> ~ lang icase text r b' e') /\
  (forall e', lang icase text r b e' -> e' = e).
(** No instance begins at a character of the text. *)
Definition no_instance (icase : bool) (text : str) (r : rx) : Prop :=
  forall b e, b < List.length text -> ~ lang icase text r b e.
(** A place of the text number [tid], perhaps with its terminator: a pointer and a length. *)
Definition part_of (tid : nat) (text : str) (p : option (nat * nat) * Z) : Prop :=
  exists b n, p = (Some (tid, b), Z.of_nat n) /\ b + n <= S (List.length text).
Definition no_place (p : option (nat * nat) * Z) : Prop := p = (None, 0%Z).
