(** Which program execve (src/child.c:173) starts: the path is followed with the rights that the process has then (src/child.c:128-137), not
    with those of root, and a file that begins with "#!" names another program to start.

    After execve(2) and the kernel's binfmt_elf and binfmt_script.  Simplifications: a file that begins like an ELF file is loaded without
    fault; other formats (binfmt_misc) are not there; the line after "#!" may have any length (256 bytes in the kernel) and has no zero
    byte. *)
From Coq Require Import ZArith Bool List Ascii String.
From Verif.Base Require Import CInt CStr.
From Verif.Model Require Import Names.
Import ListNotations.
Open Scope list_scope.
Open Scope Z_scope.

(** The right to execute; root needs one of the three bits. *)
Definition may_exec (u : who) (n : node) : bool :=
  if w_uid u =? 0 then existsb (Z.testbit (n_mode n)) [0; 3; 6] else may 0 u n.
(** The file of a program; [busy]: the objects open for writing (ETXTBSY). *)
Definition executable (u : who) (F : fs) (busy : list nat) (p : str) : option (nat * str) :=
  match locate u F p true with
  | At i | Entry _ _ i =>
      match nth_error F i with
      | Some n =>
          match n_kind n with
          | IsFile data => if may_exec u n && negb (existsb (Nat.eqb i) busy) then Some (i, data) else None
          | _ => None
          end
      | None => None
      end
  | _ => None
  end.

Fixpoint begins (a data : str) : option str :=
  match a, data with
  | [], _ => Some data
  | x :: a, y :: data => if Ascii.eqb x y then begins a data else None
  | _, [] => None
  end.
Definition magic : str := [ascii_of_nat 127; "E"%char; "L"%char; "F"%char].
Definition is_elf (data : str) : bool := match begins magic data with Some _ => true | None => false end.

Definition newline : ascii := ascii_of_nat 10.
Definition blank (c : ascii) : bool := Ascii.eqb c " "%char || Ascii.eqb c (ascii_of_nat 9).
Fixpoint upto (stop : ascii -> bool) (s : str) : str * str :=
  match s with
  | [] => ([], [])
  | c :: s' => if stop c then ([], s) else let (a, b) := upto stop s' in (c :: a, b)
  end.
Definition skip (s : str) : str := snd (upto (fun c => negb (blank c)) s).
Definition trim_end (s : str) : str := rev (skip (rev s)).
(** binfmt_script: the interpreter and what follows it as one argument. *)
Definition interpreter (data : str) : option (str * list str) :=
  match begins (lit "#!") data with
  | Some rest =>
      let (name, more) := upto blank (skip (trim_end (fst (upto (Ascii.eqb newline) rest)))) in
      match name with
      | [] => None
      | _ => Some (name, match skip more with [] => [] | a => [a] end)
      end
  | None => None
  end.

(** The program and its arguments, through at most [depth] interpreters. *)
Fixpoint starts (depth : nat) (u : who) (F : fs) (busy : list nat) (p : str) (argv : list str) : option (nat * list str) :=
  match executable u F busy p with
  | Some (i, data) =>
      if is_elf data then Some (i, argv)
      else match interpreter data with
           | Some (name, arg) =>
               match depth with
               | O => None
               | S k => starts k u F busy name (name :: arg ++ p :: tl argv)
               end
           | None => None
           end
  | None => None
  end.
(** exec_binprm of the kernel: five. *)
Definition start (u : who) (F : fs) (busy : list nat) (p : str) (argv : list str) : option (nat * list str) := starts 5 u F busy p argv.
