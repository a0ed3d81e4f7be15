(** Character buffers.  A block is the list of its bytes, [None] for a byte that
    was never written.  Reading an uninitialised byte, or reading or writing
    outside the block, is undefined behaviour.  Nothing here models a function
    of /repo; these are the <string.h> functions the code calls. *)
From Coq Require Import ZArith Bool List Ascii.
From Verif.Base Require Import CInt CStr.
Import ListNotations.
Open Scope list_scope.
Open Scope nat_scope.

Definition block : Type := list (option ascii).

(** The bytes of a C string in memory. *)
Definition bytes (s : str) : block := map Some s.
Definition terminated (s : str) : block := bytes s ++ [Some NUL].

(** [memset(b, 0, n)] on a new block of [n] bytes. *)
Definition zeroed (n : nat) : block := repeat (Some NUL) n.

(** The C string that begins at the start of the block. *)
Fixpoint cstr (b : block) : cres str :=
  match b with
  | [] => UB
  | None :: _ => UB
  | Some c :: b' => if aeqb c NUL then Val [] else cbind (cstr b') (fun s => Val (c :: s))
  end.

(** [b[i]]. *)
Definition load (b : block) (i : nat) : cres ascii :=
  match nth_error b i with Some (Some c) => Val c | _ => UB end.

(** Write the bytes [w] at offset [off]. *)
Definition store (b : block) (off : nat) (w : block) : cres block :=
  if off + List.length w <=? List.length b
  then Val (firstn off b ++ w ++ skipn (off + List.length w) b)
  else UB.
