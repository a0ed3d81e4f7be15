(** What a registry of commands is, without hashing, chains or memory. *)
From Coq Require Import ZArith Bool List Ascii.
From Verif.Base Require Import CInt CStr CMem.
From Verif.Model Require Import ArgMemory HashTable.
Import ListNotations.

(** What a program asks of the registry. *)
Inductive request (P : Type) : Type :=
| Register (name : str) (proc : P) (description : str)
| Unregister (name : str).
Arguments Register {P}. Arguments Unregister {P}.

(** Strings that fit: without NUL, a name below 100 bytes and a description below 256. *)
Definition fits {P} (q : request P) : Prop :=
  match q with
  | Register n _ d => no_nul n /\ (List.length n < 100)%nat /\ no_nul d /\ (List.length d < 256)%nat
  | Unregister n => True
  end.

(** What [name] stands for after the requests [qs], oldest first: the last request about it decides. *)
Definition current {P} (qs : list (request P)) (name : str) : option (P * str) :=
  fold_left (fun cur q =>
    match q with
    | Register n p d => if str_eqb n name then Some (p, d) else cur
    | Unregister n => if str_eqb n name then None else cur
    end) qs None.

(** A program that makes the requests one after the other, after arg_cmd_init. *)
Fixpoint serve {P} (loadlimit : Z -> Z) (ok : nat -> bool) (qs : list (request P)) (r : registry P) (h : heap) : mres (registry P * heap) :=
  match qs with
  | [] => MVal (r, h)
  | Register n p d :: qs => mbind (cmd_register P loadlimit ok n p d r h) (fun '(r, h) => serve loadlimit ok qs r h)
  | Unregister n :: qs => mbind (cmd_unregister P n r h) (fun '(r, h) => serve loadlimit ok qs r h)
  end.
Definition served {P} (loadlimit : Z -> Z) (ok : nat -> bool) (qs : list (request P)) : mres (registry P * heap) :=
  mbind (cmd_init P loadlimit ok (mkHeap [] 0)) (fun '(r, h) => serve loadlimit ok qs r h).

(** The command that was found is the one asked for: its name, procedure and description. *)
Definition is_command {P} (i : info P) (name : str) (x : P * str) : Prop :=
  cstr (ci_name i) = Val name /\ ci_proc i = fst x /\ cstr (ci_description i) = Val (snd x).

(** A program that walks over all commands and takes out those that [keep] does not want
    (arg_hashtable_itr_remove on the way). *)
Fixpoint sweep {P} (keep : str -> bool) (fuel : nat) (t : htab (info P)) (i : hitr) (h : heap) : option (mres (registry P * heap)) :=
  match fuel with
  | O => None
  | S fuel =>
      match itr_key (info P) t i with
      | UB => Some MUB
      | Val k =>
          if keep k
          then match itr_advance (info P) t i with
               | UB => Some MUB
               | Val (true, i) => sweep keep fuel t i h
               | Val (false, _) => Some (MVal (Some t, h))
               end
          else match itr_remove (info P) t i h with
               | MUB => Some MUB
               | MPanic => Some MPanic
               | MVal (true, i, t, h) => sweep keep fuel t i h
               | MVal (false, _, t, h) => Some (MVal (Some t, h))
               end
      end
  end.
Definition swept {P} (keep : str -> bool) (fuel : nat) (r : registry P) (h : heap) : option (mres (registry P * heap)) :=
  match r with
  | None => Some MUB
  | Some t => if hashtable_count (info P) t =? 0 then Some (MVal (Some t, h)) else sweep keep fuel t (itr_create (info P) t) h
  end%Z.
