(** Several calls of run() in one process, one after another or in several threads: src/runner.c:52-98 and src/killer.c for each,
    as Model/Timeout.v has them, with the process numbers and the clocks they share.  A process that lives on after run() is one
    that uses the Lua binding (bindings/Lua/judger.c:187); its timeout threads are still there when the next call begins.

    Simplifications: a signal that one call sends to the program of another arrives at once; a number read from dead arguments
    (C34) reaches nobody; [p_pid] of a call is the number its fork will return, chosen beforehand. *)
From Coq Require Import ZArith Bool List.
From Verif.Base Require Import CInt CStr.
From Verif.Model Require Import Config Runner Timeout.
From Verif.Spec Require Import Verdict.
Import ListNotations.
Open Scope Z_scope.

(** Where an event in the life of a call comes from: the call itself, with its program and its thread; the clocks; the kernel, that
    gives its number away; the call with number [i]. *)
Inductive origin : Type := Own | Clock | Kernel | Other (i : nat).

(** A call: its parameters, the clocks when it began, what happened to it so far (src/runner.c:52-98), and its state. *)
Record call : Type := mkCall {
  c_par : tparams; c_mono : Z; c_wall : Z; c_past : list (origin * op); c_st : tstate
}.
Record process : Type := mkG { g_mono : Z; g_wall : Z; g_calls : list call }.

Inductive gop : Type :=
| Enter (P : tparams)        (* run() is called and has passed its checks *)
| Do (i : nat) (o : op)      (* something happens in call i *)
| Pass (d : Z)               (* d microseconds pass *)
| Adjust (d : Z)             (* somebody adjusts the wall clock *)
| Reuse (i : nat).           (* the number of the program of call i is given to a process no call made *)

(** The event [o], of origin [f], happens to the call. *)
Definition event (f : origin) (o : op) (c : call) : option call :=
  match step (c_par c) (c_st c) o with
  | Some s => Some (mkCall (c_par c) (c_mono c) (c_wall c) (c_past c ++ [(f, o)]) s)
  | None => None
  end.
(** The same if it can happen. *)
Definition suffer (f : origin) (o : op) (c : call) : call :=
  match event f o c with Some c' => c' | None => c end.

(** The number of the program of [c] is in use: it lives or has not been waited for. *)
Definition in_use (pid : Z) (c : call) : bool :=
  (p_pid (c_par c) =? pid) && match proc_st (c_st c) with Running | StoppedP _ _ | Zombie _ => true | _ => false end.

(** src/runner.c:56: this event is a fork. *)
Definition forks (c c' : call) : bool :=
  match proc_st (c_st c), proc_st (c_st c') with NotForked, Running => true | _, _ => false end.
(** src/killer.c:9-11: this event is a signal to whoever has the number of the program, which is gone. *)
Definition strays (c c' : call) : bool :=
  match skipn (length (kills (c_st c))) (kills (c_st c')) with
  | [k] => match kl_target k with TStranger => true | _ => false end
  | _ => false
  end.

(** What the event of call [i], from [c] to [c'], does to another one: a fork takes its number if that is free, a signal that goes
    astray ends its program if that has the number. *)
Definition effect (i : nat) (c c' other : call) : call :=
  if p_pid (c_par other) =? p_pid (c_par c) then
    if forks c c' then suffer (Other i) Recycle other
    else if strays c c' then suffer (Other i) (Die SIGKILL false) other
    else other
  else other.

Fixpoint mapi_from {A B : Type} (n : nat) (f : nat -> A -> B) (l : list A) : list B :=
  match l with [] => [] | x :: l => f n x :: mapi_from (S n) f l end.

(** All calls at once; [None] if one cannot. *)
Fixpoint everywhere (f : origin) (o : op) (l : list call) : option (list call) :=
  match l with
  | [] => Some []
  | c :: l => match event f o c, everywhere f o l with Some c', Some l' => Some (c' :: l') | _, _ => None end
  end.

(** What belongs to one call alone. *)
Definition own_op (o : op) : bool := match o with Tick _ | SetClock _ | Recycle => false | _ => true end.

Definition gstep (g : process) (x : gop) : option process :=
  match x with
  | Enter P => Some (mkG (g_mono g) (g_wall g) (g_calls g ++ [mkCall P (g_mono g) (g_wall g) [] (init (g_mono g) (g_wall g))]))
  | Do i o =>
      if own_op o then
        match nth_error (g_calls g) i with
        | Some c =>
            match event Own o c with
            | Some c' =>
                (* fork never returns a number that is in use *)
                if forks c c' && existsb (in_use (p_pid (c_par c))) (g_calls g) then None
                else Some (mkG (g_mono g) (g_wall g)
                             (mapi_from 0 (fun j other => if Nat.eqb j i then c' else effect i c c' other) (g_calls g)))
            | None => None
            end
        | None => None
        end
      else None
  | Pass d =>
      match everywhere Clock (Tick d) (g_calls g) with
      | Some l => if 0 <? d then Some (mkG (g_mono g + d) (g_wall g + d) l) else None
      | None => None
      end
  | Adjust d =>
      match everywhere Clock (SetClock d) (g_calls g) with
      | Some l => Some (mkG (g_mono g) (g_wall g + d) l)
      | None => None
      end
  | Reuse i =>
      match nth_error (g_calls g) i with
      | Some c =>
          if existsb (in_use (p_pid (c_par c))) (g_calls g) then None
          else match event Kernel Recycle c with
               | Some c' => Some (mkG (g_mono g) (g_wall g)
                                    (mapi_from 0 (fun j other => if Nat.eqb j i then c' else other) (g_calls g)))
               | None => None
               end
      | None => None
      end
  end.

Fixpoint gexec (g : process) (ops : list gop) : option process :=
  match ops with
  | [] => Some g
  | x :: rest => match gstep g x with Some g' => gexec g' rest | None => None end
  end.

(** A process that has not called run() yet. *)
Definition before_calls (m w : Z) : process := mkG m w [].
