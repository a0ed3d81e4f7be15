(** What a judged program can read: its requests and the answers of the kernel, for programs that choose each request by the answers
    so far.  The file system is that of Model/Names.v.

    The program is started by execve at src/child.c:173 with the user and the groups of src/child.c:129-137 and the descriptors that are
    open then (src/child.c:85-125 and those of the caller).  Simplifications: a read gives the whole contents at once; what a program can
    learn from times, from /proc, from other programs and from starting further programs is left out. *)
From Coq Require Import ZArith Bool List Ascii String.
From Verif.Base Require Import CInt CStr.
From Verif.Model Require Import Config Runner Seccomp Child Names.
Import ListNotations.
Open Scope list_scope.
Open Scope Z_scope.

(** Requests: a change as in Model/Names.v; open for reading; read an open object; list a directory; readlink; stat, and lstat if not
    [follow]. *)
Inductive ask : Type :=
| Change (a : act)
| OpenRead (p : str)
| ReadHeld (i : nat)
| ListDir (p : str)
| ReadLink (p : str)
| Stat (p : str) (follow : bool).
(** Answers: refused; done; the object opened; contents; names; sort, size, owner, group and mode. *)
Inductive answer : Type :=
| Refused
| Done
| Opened (i : nat)
| Contents (data : str)
| Listing (l : list (str * nat))
| Info (i : nat) (sort : string) (size : nat) (uid gid mode : Z).

(** The file system and the objects open for writing and for reading. *)
Record state : Type := mkSt { st_fs : fs; st_held : list nat; st_seen : list nat }.

Definition found (u : who) (F : fs) (p : str) (follow : bool) : option (nat * node) :=
  match locate u F p follow with
  | At i | Entry _ _ i => match nth_error F i with Some n => Some (i, n) | None => None end
  | _ => None
  end.
(** stat(2): st_mode and st_size. *)
Definition sort_of (k : kind) : string :=
  match k with IsFile _ => "file" | IsDir _ _ => "directory" | IsLink _ => "link" | IsOther => "other" end.
Definition size_of (k : kind) : nat :=
  match k with IsFile data => List.length data | IsDir _ l => List.length l | IsLink t => List.length t | IsOther => 0%nat end.

Definition respond (umask : Z) (u : who) (s : state) (q : ask) : state * answer :=
  let F := st_fs s in
  match q with
  | Change a =>
      match does umask u (F, st_held s) a with
      | Some (F', held') => (mkSt F' held' (st_seen s), Done)
      | None => (s, Refused)
      end
  | OpenRead p =>                      (* open(2): needs the right to read, bit 2 *)
      match found u F p true with
      | Some (i, n) => if may 2 u n then (mkSt F (st_held s) (i :: st_seen s), Opened i) else (s, Refused)
      | None => (s, Refused)
      end
  | ReadHeld i =>                      (* read(2) *)
      if existsb (Nat.eqb i) (st_seen s) then
        match nth_error F i with
        | Some n => match n_kind n with IsFile data => (s, Contents data) | _ => (s, Refused) end
        | None => (s, Refused)
        end
      else (s, Refused)
  | ListDir p =>
      match found u F p true with
      | Some (_, n) => match n_kind n with IsDir _ l => if may 2 u n then (s, Listing l) else (s, Refused) | _ => (s, Refused) end
      | None => (s, Refused)
      end
  | ReadLink p =>
      match found u F p false with
      | Some (_, n) => match n_kind n with IsLink t => (s, Contents t) | _ => (s, Refused) end
      | None => (s, Refused)
      end
  | Stat p follow =>
      match found u F p follow with
      | Some (i, n) => (s, Info i (sort_of (n_kind n)) (size_of (n_kind n)) (n_uid n) (n_gid n) (n_mode n))
      | None => (s, Refused)
      end
  end.

(** A program chooses by all answers so far, the last one first; [None]: it ends. *)
Definition strategy := list answer -> option ask.
Fixpoint life (umask : Z) (u : who) (f : strategy) (steps : nat) (s : state) (past : list answer) : state * list answer :=
  match steps with
  | O => (s, past)
  | S n => match f past with
           | None => (s, past)
           | Some q => let (s', a) := respond umask u s q in life umask u f n s' (a :: past)
           end
  end.

(** The program at src/child.c:173: its effective user, its group and supplementary groups. *)
Definition person (k : kstate) (cwd : nat) : who := mkWho (euid (k_cred k)) (egid (k_cred k) :: groups (k_cred k)) cwd.
(** The objects it has open for reading; [obj]: the object of an open file.  What a caller hands on may be open for both. *)
Definition readable (k : kstate) (obj : ofile -> nat) : list nat :=
  flat_map (fun o => match o with
                     | Some f => match of_mode f with MWrite | MAppend => [] | _ => [obj f] end
                     | None => []
                     end) (k_fds k).

(** Several programs at the same time, of any users, and openings by the judger (src/child.c:99, 115) in between: who is next is decided
    from outside. *)
Record prog : Type := mkProg { g_umask : Z; g_who : who; g_next : strategy; g_held : list nat; g_seen : list nat; g_past : list answer }.
Inductive move : Type := Turn (i : nat) | Judge (umask : Z) (judge : who) (q : str).
Fixpoint put (l : list prog) (i : nat) (g : prog) : list prog :=
  match l, i with
  | [], _ => []
  | _ :: l, O => g :: l
  | h :: l, S i => h :: put l i g
  end.
Definition moves (w : fs * list prog) (m : move) : fs * list prog :=
  let (F, l) := w in
  match m with
  | Turn i =>
      match nth_error l i with
      | Some g =>
          match g_next g (g_past g) with
          | Some q => let (s, a) := respond (g_umask g) (g_who g) (mkSt F (g_held g) (g_seen g)) q in
                      (st_fs s, put l i (mkProg (g_umask g) (g_who g) (g_next g) (st_held s) (st_seen s) (a :: g_past g)))
          | None => w
          end
      | None => w
      end
  | Judge umask judge q => match open_write umask judge true true F q with Some (F', _) => (F', l) | None => w end
  end.
Definition together (w : fs * list prog) (ms : list move) : fs * list prog := fold_left moves ms w.
