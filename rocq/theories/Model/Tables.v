(** src/argtable3.c: making the objects of an option table, arg_nullcheck, arg_free and arg_freetable, for any table of
    any caller.  Of an object only its address and its [flag] matter here (the rest: Model/ArgObject.v). *)
From Coq Require Import ZArith Bool List.
From Verif.Base Require Import CInt.
Import ListNotations.
Open Scope Z_scope.

(** The blocks in use: for an address, the [flag] of the object there; [None]: nothing is allocated there (not yet, or
    it has been freed), so that reading it or freeing it is undefined. *)
Definition objects := Z -> option Z.
Definition put_object (h : objects) (a f : Z) : objects := fun b => if b =? a then Some f else h b.
Definition drop_object (h : objects) (a : Z) : objects := fun b => if b =? a then None else h b.

(** The array [argtable]: its elements, each NULL or an address. *)
Definition table := list (option Z).

(** src/argtable3.h:53 *)
Definition ARG_TERMINATOR : Z := 1.
Definition terminator (f : Z) : bool := negb (Z.land f ARG_TERMINATOR =? 0).

(** [table[i]->flag] *)
Definition read_flag (h : objects) (a : Z) : cres Z := match h a with Some f => Val f | None => UB end.
(** src/argtable3.c:383-385; free(NULL) is not reached from here. *)
Definition xfree (h : objects) (a : Z) : cres objects := match h a with Some _ => Val (drop_object h a) | None => UB end.
(** [tabindex++] in an int. *)
Definition next (i : Z) : cres Z := int_op (i + 1).

(** ** src/argtable3.c:5949-5965: arg_nullcheck
    The loop from element [i] on; [t] is what is left of the array: reading behind it is undefined. *)
Fixpoint nullcheck_from (h : objects) (i : Z) (t : table) : cres Z :=
  match t with
  | [] => UB
  | None :: _ => Val 1
  | Some a :: t =>
      cbind (next i) (fun i =>
      cbind (read_flag h a) (fun f => if terminator f then Val 0 else nullcheck_from h i t))
  end.
(** [None]: argtable is NULL. *)
Definition arg_nullcheck (h : objects) (t : option table) : cres Z :=
  match t with None => Val 1 | Some t => nullcheck_from h 0 t end.

(** ** src/argtable3.c:5978-5998: arg_free *)
Fixpoint free_from (h : objects) (i : Z) (t : table) : cres (table * objects) :=
  match t with
  | [] => UB
  | None :: _ => Val (t, h)
  | Some a :: t =>
      cbind (read_flag h a) (fun flag =>
      cbind (xfree h a) (fun h =>
      cbind (next i) (fun i =>
      if terminator flag then Val (None :: t, h)
      else cbind (free_from h i t) (fun '(t, h) => Val (None :: t, h)))))
  end.
Definition arg_free (h : objects) (t : table) : cres (table * objects) := free_from h 0 t.

(** ** src/argtable3.c:6001-6012: arg_freetable
    [n] elements, in a size_t, which counts any array. *)
Fixpoint arg_freetable (h : objects) (t : table) (n : nat) {struct n} : cres (table * objects) :=
  match n with
  | O => Val (t, h)
  | S n =>
      match t with
      | [] => UB
      | None :: t => cbind (arg_freetable h t n) (fun '(t, h) => Val (None :: t, h))
      | Some a :: t =>
          cbind (xfree h a) (fun h =>
          cbind (arg_freetable h t n) (fun '(t, h) => Val (None :: t, h)))
      end
  end.

(** ** Making the objects
    src/argtable3.c:318-381: a request that fails calls the function set by arg_set_panic: one that ends the process (as
    [panic] does, lines 328-350), or one that returns, and then xmalloc gives NULL. *)
Inductive panicfn : Type := PEnds | PReturns.
Inductive made (A : Type) : Type := Made (a : A) | Ended | MUndef.
Arguments Made {A} a.
Arguments Ended {A}.
Arguments MUndef {A}.

(** xmalloc (356-362), xcalloc (364-372): [got] is what malloc or calloc gives. *)
Definition xmalloc (p : panicfn) (got : option Z) : made (option Z) :=
  match got with
  | Some a => Made (Some a)
  | None => match p with PEnds => Ended | PReturns => Made None end
  end.

(** arg_litn (3405-3436), arg_intn (3284-3320), arg_strn (4609-4650), arg_dbln (2643-2690), arg_rexn (3718-3785),
    arg_filen (2981-3030), arg_daten (2081-2126), arg_rem (3477-3496), arg_end (2768-2803): each asks for one block and
    writes [hdr.flag] through the pointer it got.  arg_rexn also compiles its pattern and frees what that took
    (Model/Trex.v). *)
Definition new_object (p : panicfn) (h : objects) (flag : Z) (got : option Z) : made (option Z * objects) :=
  match xmalloc p got with
  | Made (Some a) => Made (Some a, put_object h a flag)
  | Made None => MUndef
  | Ended => Ended
  | MUndef => MUndef
  end.

(** The initialiser of a table, as in src/main.c:13-40: one object after the other; [None] is a NULL that the caller
    writes into the table. *)
Fixpoint make_table (p : panicfn) (h : objects) (flags : list (option Z)) (got : nat -> option Z) (n : nat)
  : made (table * objects) :=
  match flags with
  | [] => Made ([], h)
  | None :: flags =>
      match make_table p h flags got n with
      | Made (t, h) => Made (None :: t, h) | Ended => Ended | MUndef => MUndef
      end
  | Some f :: flags =>
      match new_object p h f (got n) with
      | Made (a, h) =>
          match make_table p h flags got (S n) with
          | Made (t, h) => Made (a :: t, h) | Ended => Ended | MUndef => MUndef
          end
      | Ended => Ended
      | MUndef => MUndef
      end
  end.
