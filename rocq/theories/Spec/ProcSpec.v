(** What is claimed about the processes of a judged program, in terms of the events of
    a history only. *)
From Coq Require Import ZArith Bool List Arith String.
From Verif.Base Require Import CInt CStr.
From Verif.Model Require Import Config Runner Processes.
Import ListNotations.
Open Scope list_scope.
Open Scope Z_scope.

Definition In_ (p : nat) (l : list nat) : bool := existsb (Nat.eqb p) l.

(** The program that starts as process x, with every process it makes, these make, ... *)
Definition grow (fam : list nat) (e : event) : list nat :=
  match e with Forks p q _ => if In_ p fam then q :: fam else fam | _ => fam end.
Definition family (x : nat) (evs : list event) : list nat := fold_left grow evs [x].

(** How many of them exist: they run, or ended and were not waited for. *)
Definition exists_in (w : machine) (p : nat) : bool := match get w p with Some _ => true | None => false end.
Definition size (fam : list nat) (w : machine) : Z := Z.of_nat (List.length (filter (exists_in w) fam)).

(** User time they spent together, in microseconds. *)
Fixpoint spent (fam : list nat) (evs : list event) : Z :=
  match evs with
  | [] => 0
  | e :: evs => match e with Runs p t => if In_ p fam then t else 0 | _ => 0 end + spent (grow fam e) evs
  end.
(** User time one process spent itself. *)
Fixpoint own_time (p : nat) (evs : list event) : Z :=
  match evs with
  | [] => 0
  | e :: evs => match e with Runs p' t => if Nat.eqb p' p then t else 0 | _ => 0 end + own_time p evs
  end.
(** The most memory any one of them had, in KiB; the first starts with the judger's. *)
Fixpoint largest (fam : list nat) (evs : list event) : Z :=
  match evs with
  | [] => 0
  | e :: evs => Z.max (match e with
                       | Starts p _ m | Holds p m => if In_ p fam then m else 0
                       | _ => 0
                       end) (largest (grow fam e) evs)
  end.
(** The memory they have together now. *)
Definition resident_of (w : machine) (p : nat) : Z := match get w p with Some r => r_mem r | None => 0 end.
Definition resident (fam : list nat) (w : machine) : Z :=
  fold_right (fun p s => resident_of w p + s) 0 fam.

(** Every process of the family that ended was waited for by the process that made it. *)
Definition lets_go (fam : list nat) (e : event) : bool :=
  match e with Vanishes q | InitReaps q => In_ q fam | _ => false end.
Definition all_waited_for (x : nat) (evs : list event) (w : machine) : Prop :=
  (forall e, In e evs -> lets_go (family x evs) e = false) /\
  (forall q, In q (family x evs) -> q <> x -> get w q = None).

(** By which system calls a program can make a process, under each profile. *)
Definition can_fork_by (rule : option str) : list string :=
  match rule with
  | None => ["fork"; "vfork"; "clone"; "clone3"]
  | Some nm => if str_eqb nm (lit "general") then ["clone3"]
               else if str_eqb nm (lit "golang") || str_eqb nm (lit "node") then ["clone"; "clone3"]
               else []
  end%string.
(** The user the program does not get: -1 as an unsigned number. *)
Definition keep_user : Z := 4294967295.
(** Only the program x runs as user u. *)
Definition exclusive (u : Z) (fam : list nat) (w : machine) : Prop :=
  forall p r, get w p = Some r -> r_user r = u -> In p fam.
