(** What an option object is to its user: a count, and arrays of as many values as it was made for. *)
From Coq Require Import ZArith Bool List.
From Verif.Base Require Import CInt.
From Verif.Model Require Import ArgObject.
Import ListNotations.
Open Scope Z_scope.

(** The count, and entry [i] of array [j]. *)
Record object : Type := mkObject { o_count : Z; o_entry : nat -> Z -> list Z }.

Inductive use : Type := Scan (g : given) | Reset.

(** Entry [i] of every array becomes the value given for it. *)
Definition set_entries (o : object) (i : Z) (vs : list (list Z)) : object :=
  mkObject (o_count o) (fun j k => if k =? i then nth j vs (o_entry o j k) else o_entry o j k).
Definition counted (o : object) : object := mkObject (o_count o + 1) (o_entry o).

(** What a use does; options without values (literals) only count. *)
Definition used (values : bool) (maximum : Z) (o : object) (u : use) : Z * object :=
  match u with
  | Reset => (0, mkObject 0 (o_entry o))
  | Scan g =>
      if o_count o =? maximum then (2, o)
      else if values then
        match g with
        | Missing => (0, counted o)
        | Refused e => (e, o)
        | Accepted vs => (0, counted (set_entries o (o_count o) vs))
        end
      else (0, counted o)
  end.
Fixpoint all_used (values : bool) (maximum : Z) (o : object) (us : list use) : list Z * object :=
  match us with
  | [] => ([], o)
  | u :: r => let (e, o) := used values maximum o u in let (es, o) := all_used values maximum o r in (e :: es, o)
  end.

(** The same with the block. *)
Fixpoint uses (K : kind) (b : block) (us : list use) : cres (list Z * block) :=
  match us with
  | [] => Val ([], b)
  | Scan g :: r => cbind (scan K b g) (fun '(e, b) => cbind (uses K b r) (fun '(es, b) => Val (e :: es, b)))
  | Reset :: r => cbind (reset K b) (fun b => cbind (uses K b r) (fun '(es, b) => Val (0 :: es, b)))
  end.

(** What the user of the library reads: the count, the minimum, entry [i] of array [j] (through the
    pointer in the struct). *)
Definition count_of (K : kind) (b : block) : cres Z := load_int b (count_at K).
Definition entry_of (K : kind) (b : block) (j : nat) (i : Z) : cres (list Z) :=
  cbind (load_ptr b (pointer_at K j)) (fun q =>
  load b (q - b_base b + i * elem K j) (elem_align K j) (Z.to_nat (elem K j))).

(** The values fit the arrays. *)
Definition fits (K : kind) (vs : list (list Z)) : Prop :=
  map len vs = map (elem K) (seq 0 (arrays K)).
Definition use_fits (K : kind) (u : use) : Prop :=
  match u with Scan (Accepted vs) => fits K vs | _ => True end.

(** An address malloc may return for a block of [size] bytes. *)
Definition allocated (base size : Z) : Prop := 0 < base /\ base mod 16 = 0 /\ base + size < 18446744073709551616.

(** How many values an option has room for. *)
Definition places (K : kind) (mincount maxcount : Z) : Z :=
  match K with KEnd => maxcount | _ => Z.max mincount maxcount end.
(** The counts a constructor can cope with. *)
Definition good_counts (K : kind) (mincount maxcount : Z) : Prop :=
  INT_MIN <= mincount <= INT_MAX /\ 0 <= places K mincount maxcount <= INT_MAX /\
  (K = KDbl -> places K mincount maxcount < INT_MAX) /\
  (K = KEnd -> Z.even maxcount = true).

(** The list of errors (parent, code, word): those reported, or as many as there is room for, the last one
    saying that there were more. *)
Definition errors_kept (maximum self : Z) (es : list (Z * Z * Z)) : list (Z * Z * Z) :=
  if Z.of_nat (length es) <=? maximum then es
  else firstn (Z.to_nat (maximum - 1)) es ++ [(self, ARG_ELIMIT, 0)].
Fixpoint registers (b : block) (l : list (Z * Z * Z)) : cres block :=
  match l with
  | [] => Val b
  | (parent, error, argval) :: r => cbind (register b parent error argval) (fun b => registers b r)
  end.
