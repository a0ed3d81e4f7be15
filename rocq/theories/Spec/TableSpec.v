(** What the functions on tables of options are to do. *)
From Coq Require Import ZArith Bool List.
From Verif.Model Require Import Tables.
Import ListNotations.
Open Scope Z_scope.

(** An object that ends a table: made by arg_end. *)
Definition ends_table (h : objects) (a : Z) : Prop := exists f, h a = Some f /\ Z.odd f = true.
Definition goes_on (h : objects) (a : Z) : Prop := exists f, h a = Some f /\ Z.odd f = false.

(** The objects of a table up to its end, which is the first NULL or the first object that ends a table. *)
Inductive stop : Type := AtNull | AtEnd.
Inductive up_to_end (h : objects) : table -> list Z -> stop -> Prop :=
| ute_null t : up_to_end h (None :: t) [] AtNull
| ute_end a t : ends_table h a -> up_to_end h (Some a :: t) [a] AtEnd
| ute_on a t l s : goes_on h a -> up_to_end h t l s -> up_to_end h (Some a :: t) (a :: l) s.

(** The addresses among the elements of a table. *)
Fixpoint addresses (t : table) : list Z :=
  match t with [] => [] | None :: t => addresses t | Some a :: t => a :: addresses t end.

(** [h'] is [h] without the objects [l], all else as it was. *)
Definition without (h : objects) (l : list Z) (h' : objects) : Prop :=
  forall a, (In a l -> h' a = None) /\ (~ In a l -> h' a = h a).
(** [h'] is [h] and the objects [l], which are new and distinct. *)
Definition grown (h : objects) (l : list Z) (h' : objects) : Prop :=
  NoDup l /\ forall a, (In a l -> h a = None /\ h' a <> None) /\ (~ In a l -> h' a = h a).
Definition same (h h' : objects) : Prop := forall a, h' a = h a.

(** malloc gives an address where nothing is allocated. *)
Definition fresh_now (h : objects) (a : option Z) : Prop := match a with Some a => h a = None | None => True end.
(** [got n], [got (n+1)], ... are what successive requests give, for as many objects as [flags] has; each is new with
    respect to what was there and to the earlier ones. *)
Fixpoint sound_malloc (h : objects) (flags : list (option Z)) (got : nat -> option Z) (n : nat) : Prop :=
  match flags with
  | [] => True
  | None :: flags => sound_malloc h flags got n
  | Some f :: flags =>
      fresh_now h (got n) /\ forall a, got n = Some a -> sound_malloc (put_object h a f) flags got (S n)
  end.
(** The number of objects asked for. *)
Fixpoint asked_for (flags : list (option Z)) : nat :=
  match flags with [] => O | None :: f => asked_for f | Some _ :: f => S (asked_for f) end.

(** All the objects [l] are there. *)
Definition alive (h : objects) (l : list Z) : Prop := forall a, In a l -> h a <> None.
(** The table with NULL in place of its first objects [l]. *)
Definition cut (l : list Z) (t : table) : table := repeat None (length l) ++ skipn (length l) t.
(** The table holds NULL where the caller wrote NULL, elsewhere an object with the flag asked for. *)
Definition as_asked (h : objects) (flags : list (option Z)) (t : table) : Prop :=
  Forall2 (fun f c => match f with None => c = None | Some f => exists a, c = Some a /\ h a = Some f end) flags t.
