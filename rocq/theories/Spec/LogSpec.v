(** What the log file should contain. *)
From Coq Require Import ZArith NArith Bool List Ascii String.
From Verif.Base Require Import CInt CStr CMem.
From Verif.Model Require Import Logger.
From Verif.Spec Require Import IntText.
From Verif.Spec Require DstrSpec.
Import ListNotations.
Open Scope list_scope.
Open Scope nat_scope.

(** LEVEL [date] [file:line]text *)
Definition log_line (note date source : str) (line : Z) (text : str) : str :=
  note ++ lit " [" ++ date ++ lit "] [" ++ source ++ lit ":" ++ decimal line ++ lit "]" ++ text ++ ["010"%char].

Inductive level : Z -> str -> Prop :=
| level_fatal : level 0 (lit "FATAL")
| level_warning : level 1 (lit "WARNING")
| level_info : level 2 (lit "INFO")
| level_debug : level 3 (lit "DEBUG").

(** A call with a valid level and line number, C strings, and a date that fits
    into the 99 bytes provided for it; and the line it asks for. *)
Inductive asks_line : call -> str -> Prop :=
| asks_line_intro lv note source line text date : level lv note -> is_int line -> no_nul source -> no_nul date ->
    List.length date <= 98 ->
    asks_line (mkCall lv source line text (Some date)) (log_line note date source line (DstrSpec.upto_nul text)).

(** The static buffers have the sizes the program declares. *)
Definition sized (s : buffers) : Prop :=
  List.length (b_buffer s) = N.to_nat 8192 /\ List.length (b_log_buffer s) = N.to_nat 8192 /\
  List.length (b_datetime s) = 100 /\ List.length (b_line_str s) = 20.

(** ** Histories of several processes *)

(** The calls whose process obtained the lock, in the order of locking;
    [cur p] is the last call process [p] started. *)
Fixpoint granted (cur : nat -> option call) (tr : list event) : list call :=
  match tr with
  | [] => []
  | Start p c :: tr => granted (fun q => if Nat.eqb q p then Some c else cur q) tr
  | Locked p :: tr => match cur p with Some c => c :: granted cur tr | None => granted cur tr end
  | _ :: tr => granted cur tr
  end.

(** A write that is cut short or fails, or a process that is killed. *)
Definition trouble (e : event) : Prop :=
  match e with Short _ | WriteFails _ | Killed _ => True | _ => False end.

(** The calls started. *)
Fixpoint started (tr : list event) : list call :=
  match tr with
  | [] => []
  | Start _ c :: tr => c :: started tr
  | _ :: tr => started tr
  end.

(** The line of a call is below the size of the buffer. *)
Definition short_line (c : call) : Prop := exists l, asks_line c l /\ (N.of_nat (List.length l) < 8192)%N.

(** Nobody is in the middle of a call. *)
Definition at_rest (s : lstate) : Prop := forall p, l_pc s p = Idle \/ l_pc s p = Dead.
