(** Which program a path stands for: execve(2). *)
From Coq Require Import ZArith Bool List Ascii String.
From Verif.Base Require Import CInt CStr.
From Verif.Model Require Import Names.
From Verif.Spec Require Import NamesSpec.
Import ListNotations.
Open Scope list_scope.
Open Scope Z_scope.

(** The right to execute a file. *)
Inductive exec_right (u : who) (n : node) : Prop :=
| exec_root b : w_uid u = 0 -> b = 0 \/ b = 3 \/ b = 6 -> Z.testbit (n_mode n) b = true -> exec_right u n
| exec_user : w_uid u <> 0 -> has_right 0 u n -> exec_right u n.

(** For [u] the path leads to the file [i] with these contents, which [u] may execute and nobody has open for writing. *)
Definition runnable (u : who) (F : fs) (busy : list nat) (p : str) (i : nat) (data : str) : Prop :=
  exists k ds pl n, (k <= 40)%nat /\ path_leads u F p k ds pl /\ reaches pl i /\ nth_error F i = Some n /\ n_kind n = IsFile data /\
                    exec_right u n /\ ~ In i busy.

Definition elf (data : str) : Prop := exists rest, data = ascii_of_nat 127 :: lit "ELF" ++ rest.
Definition is_blank (c : ascii) : Prop := c = " "%char \/ c = ascii_of_nat 9.
Definition blanks (s : str) : Prop := forall c, In c s -> is_blank c.
Definition solid (s : str) : Prop := s <> [] /\ forall c, In c s -> ~ is_blank c.
(** Neither the first nor the last letter is a blank. *)
Definition trimmed (s : str) : Prop :=
  (exists c s', s = c :: s' /\ ~ is_blank c) /\ exists s' c, s = s' ++ [c] /\ ~ is_blank c.
(** The first line of the file is "#!", a name, and perhaps an argument, with blanks around them. *)
Definition names_interpreter (data name : str) (arg : list str) : Prop :=
  exists b1 b2 line eol, data = lit "#!" ++ line ++ eol /\ ~ In (ascii_of_nat 10) line /\
    (eol = [] \/ exists more, eol = ascii_of_nat 10 :: more) /\ blanks b1 /\ blanks b2 /\ solid name /\
    ((arg = [] /\ line = b1 ++ name ++ b2) \/
     exists b a, arg = [a] /\ line = b1 ++ name ++ b ++ a ++ b2 /\ blanks b /\ b <> [] /\ trimmed a).

(** The path [p] with the arguments [argv] stands for the program [j] with the arguments [argv'], by way of [k] interpreters. *)
Inductive stands_for (u : who) (F : fs) (busy : list nat) : nat -> str -> list str -> nat -> list str -> Prop :=
| itself p argv i data : runnable u F busy p i data -> elf data -> stands_for u F busy 0 p argv i argv
| interpreted k p argv i data name arg j argv' : runnable u F busy p i data -> names_interpreter data name arg ->
    stands_for u F busy k name (name :: arg ++ p :: tl argv) j argv' -> stands_for u F busy (S k) p argv j argv'.

(** The path [q], with the object [i], is needed to start [p]: it is [p] itself or the name of an interpreter. *)
Inductive uses (u : who) (F : fs) (busy : list nat) : str -> str -> nat -> Prop :=
| uses_itself p i data : runnable u F busy p i data -> uses u F busy p p i
| uses_next p i data name arg q j : runnable u F busy p i data -> names_interpreter data name arg -> uses u F busy name q j -> uses u F busy p q j.

(** No program of the history may write to object [i]. *)
Definition not_writable (F : fs) (i : nat) (l : list event) : Prop :=
  forall umask u held acts n, In (Runs umask u held acts) l -> nth_error F i = Some n -> shut u n.
(** No program of the history has object [i] open at its start, and no opening of the judger is one of it. *)
Fixpoint spared (i : nat) (F : fs) (l : list event) : Prop :=
  match l with
  | [] => True
  | e :: l => match e with
              | Runs _ _ held _ => ~ In i held
              | Opens umask judge q => forall F' j, open_write umask judge true true F q = Some (F', j) -> j <> i
              end /\ spared i (happens F e) l
  end.
(** The way of the path [q] to object [i] and the object itself are closed to the programs of the history. *)
Definition guarded (u : who) (F : fs) (l : list event) (q : str) (i : nat) : Prop :=
  exists k ds pl, (k <= 40)%nat /\ path_leads u F q k ds pl /\ reaches pl i /\ outsiders F ds l /\ not_writable F i l /\ spared i F l.
