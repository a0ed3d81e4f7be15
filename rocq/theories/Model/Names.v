(** The names of files: how the kernel finds the file that a path names when src/child.c:85, 99 and 115 open the input, the output and
    the error file, and what a program may do to names.  Model/Files.v has the contents of files for a fixed meaning of every path;
    here the meaning may change.

    The kernel's part follows path_resolution(7), symlink(7), open(2), unlink(2), rename(2) and the like.  Simplifications: one file
    system without mount points, chroot, access control lists, capabilities and quotas; fs.protected_symlinks and
    fs.protected_hardlinks are off; an object keeps its number when its last name is gone; a new file gets the first group of its
    maker. *)
From Coq Require Import ZArith Bool List Ascii String.
From Verif.Base Require Import CInt CStr.
From Verif.Model Require Import Config Runner Seccomp Child.
Import ListNotations.
Open Scope list_scope.
Open Scope Z_scope.

(** What an object is: a file with its contents; a directory with the directory above it and its names; a symbolic link; a device or
    a pipe. *)
Inductive kind : Type := IsFile (data : str) | IsDir (up : nat) (l : list (str * nat)) | IsLink (to : str) | IsOther.
Record node : Type := mkNode { n_kind : kind; n_uid : Z; n_gid : Z; n_mode : Z }.
(** All objects by number; 0 is the root directory. *)
Definition fs := list node.
(** Who acts: user, groups, working directory. *)
Record who : Type := mkWho { w_uid : Z; w_gids : list Z; w_cwd : nat }.

(** access rights, path_resolution(7): [bit] is 0 for search, 1 for write, 2 for reading. *)
Definition may (bit : Z) (u : who) (n : node) : bool :=
  (w_uid u =? 0) ||
  (if w_uid u =? n_uid n then Z.testbit (n_mode n) (6 + bit)
   else if existsb (Z.eqb (n_gid n)) (w_gids u) then Z.testbit (n_mode n) (3 + bit)
   else Z.testbit (n_mode n) bit).

(** A path taken apart at the slashes; a slash at the end stands for "/.". *)
Definition slash : ascii := "/"%char.
Fixpoint pieces (cur : str) (p : str) : list str :=
  match p with
  | [] => [rev cur]
  | c :: p => if Ascii.eqb c slash then rev cur :: pieces [] p else pieces (c :: cur) p
  end.
Definition nonempty (s : str) : bool := match s with [] => false | _ => true end.
Definition components (p : str) : list str :=
  List.filter nonempty (pieces [] p) ++
  (match p with [] => [] | _ => if Ascii.eqb (last p " "%char) slash then [lit "."] else [] end).
Definition absolute (p : str) : bool := match p with c :: _ => Ascii.eqb c slash | [] => false end.

Fixpoint entry (x : str) (l : list (str * nat)) : option nat :=
  match l with [] => None | (y, i) :: l => if str_eqb x y then Some i else entry x l end.

(** Where a path leads: to an object by way of "." or ".." or of the start; to the object [i], the entry [x] of [d]; to no object, but
    [d] exists and [x] is free there; nowhere. *)
Inductive place : Type := At (i : nat) | Entry (d : nat) (x : str) (i : nat) | Free (d : nat) (x : str) | Nowhere.

(** Following names from the directory [d], with at most [links] symbolic links; [follow]: the last name too if it is a link. *)
Fixpoint walk (links : nat) (F : fs) (u : who) (follow : bool) {struct links} : nat -> list str -> place :=
  fix go (d : nat) (l : list str) {struct l} : place :=
    match l with
    | [] => At d
    | x :: rest =>
        match nth_error F d with
        | Some n =>
            match n_kind n with
            | IsDir up ents =>
                if negb (may 0 u n) then Nowhere
                else if str_eqb x (lit ".") then go d rest
                else if str_eqb x (lit "..") then go up rest
                else match entry x ents with
                     | None => match rest with [] => Free d x | _ => Nowhere end
                     | Some i =>
                         match nth_error F i with
                         | None => Nowhere
                         | Some m =>
                             match n_kind m with
                             | IsLink t =>
                                 if match rest with [] => negb follow | _ => false end then Entry d x i
                                 else match links with
                                      | O => Nowhere
                                      | S k => walk k F u follow (if absolute t then 0%nat else d) (components t ++ rest)
                                      end
                             | _ => match rest with [] => Entry d x i | _ => go i rest end
                             end
                         end
                     end
            | _ => Nowhere
            end
        | None => Nowhere
        end
    end.
(** MAXSYMLINKS of the kernel. *)
Definition max_links : nat := 40.
Definition origin_of (u : who) (p : str) : nat := if absolute p then 0%nat else w_cwd u.
Definition locate (u : who) (F : fs) (p : str) (follow : bool) : place :=
  walk max_links F u follow (origin_of u p) (components p).

(** Changing objects. *)
Fixpoint upd (F : fs) (i : nat) (n : node) : fs :=
  match F, i with
  | [], _ => []
  | _ :: F, O => n :: F
  | m :: F, S i => m :: upd F i n
  end.
Definition with_kind (n : node) (k : kind) : node := mkNode k (n_uid n) (n_gid n) (n_mode n).
(** The names of directory [d] change to [f] of them, if [u] may write there. *)
Definition in_dir (u : who) (F : fs) (d : nat) (f : list (str * nat) -> list (str * nat)) : option fs :=
  match nth_error F d with
  | Some n => match n_kind n with
              | IsDir up l => if may 1 u n then Some (upd F d (with_kind n (IsDir up (f l)))) else None
              | _ => None
              end
  | None => None
  end.
Definition add (x : str) (i : nat) (l : list (str * nat)) : list (str * nat) := l ++ [(x, i)].
Definition drop (x : str) (l : list (str * nat)) : list (str * nat) := List.filter (fun e => negb (str_eqb x (fst e))) l.
(** A new object with a new name. *)
Definition make (u : who) (F : fs) (d : nat) (x : str) (k : kind) (mode : Z) : option fs :=
  match in_dir u F d (add x (List.length F)) with
  | Some F' => Some (F' ++ [mkNode k (w_uid u) (hd 0 (w_gids u)) mode])
  | None => None
  end.

(** open(2) for writing; the answer has the number of the object. *)
Definition open_write (umask : Z) (u : who) (create trunc : bool) (F : fs) (p : str) : option (fs * nat) :=
  match locate u F p true with
  | At i | Entry _ _ i =>
      match nth_error F i with
      | Some n =>
          match n_kind n with
          | IsFile data => if may 1 u n then Some (if trunc then upd F i (with_kind n (IsFile [])) else F, i) else None
          | IsOther => if may 1 u n then Some (F, i) else None
          | _ => None
          end
      | None => None
      end
  | Free d x =>
      if create then
        match make u F d x (IsFile []) (Z.land 438 (Z.lnot umask)) with
        | Some F' => Some (F', List.length F)
        | None => None
        end
      else None
  | Nowhere => None
  end.

(** src/child.c:85, 99, 115: the openings of a child, in the order of its trace; fopen with "w" is O_WRONLY|O_CREAT|O_TRUNC, 0666.
    [None] if the kernel cannot open one of them. *)
Fixpoint openings (umask : Z) (u : who) (F : fs) (tr : list cevent) : option fs :=
  match tr with
  | [] => Some F
  | EvOpen _ p MRead :: tr => match locate u F p true with At _ | Entry _ _ _ => openings umask u F tr | _ => None end
  | EvOpen _ p _ :: tr => match open_write umask u true true F p with Some (F', _) => openings umask u F' tr | None => None end
  | _ :: tr => openings umask u F tr
  end.

(** What a program can do to names and files; 1 << 9 is the sticky bit. *)
Inductive act : Type :=
| AOpen (p : str) (create trunc : bool)     (* open for writing *)
| AStore (i : nat) (data : str)             (* write or truncate through a descriptor *)
| ASymlink (t p : str)
| ALink (old new : str)
| AMkdir (p : str) (mode : Z)
| AUnlink (p : str)                         (* unlink, rmdir *)
| ARename (old new : str)
| AChmod (p : str) (mode : Z)
| AChgrp (p : str) (g : Z).

(** May [u] take the name of object [i] away from directory [d]? *)
Definition may_remove (u : who) (F : fs) (d i : nat) : bool :=
  match nth_error F d, nth_error F i with
  | Some n, Some m => negb (Z.testbit (n_mode n) 9) || (w_uid u =? 0) || (w_uid u =? n_uid n) || (w_uid u =? n_uid m)
  | _, _ => false
  end.
(** The object of an existing file, directory, … *)
Definition object (u : who) (F : fs) (p : str) : option (nat * node) :=
  match locate u F p true with
  | At i | Entry _ _ i => match nth_error F i with Some n => Some (i, n) | None => None end
  | _ => None
  end.

(** One call; [held]: the objects open for writing.  [None]: it fails. *)
Definition does (umask : Z) (u : who) (s : fs * list nat) (a : act) : option (fs * list nat) :=
  let (F, held) := s in
  match a with
  | AOpen p create trunc =>
      match open_write umask u create trunc F p with Some (F', i) => Some (F', i :: held) | None => None end
  | AStore i data =>
      if existsb (Nat.eqb i) held then
        match nth_error F i with
        | Some n => match n_kind n with IsFile _ => Some (upd F i (with_kind n (IsFile data)), held) | _ => None end
        | None => None
        end
      else None
  | ASymlink t p =>
      match locate u F p false with
      | Free d x => match make u F d x (IsLink t) 511 with Some F' => Some (F', held) | None => None end
      | _ => None
      end
  | ALink old new =>
      match locate u F old false, locate u F new false with
      | Entry _ _ i, Free d x =>
          match nth_error F i with
          | Some n => match n_kind n with
                      | IsDir _ _ => None
                      | _ => match in_dir u F d (add x i) with Some F' => Some (F', held) | None => None end
                      end
          | None => None
          end
      | _, _ => None
      end
  | AMkdir p mode =>
      match locate u F p false with
      | Free d x => match make u F d x (IsDir d []) (Z.land mode (Z.lnot umask)) with Some F' => Some (F', held) | None => None end
      | _ => None
      end
  | AUnlink p =>
      match locate u F p false with
      | Entry d x i =>
          if may_remove u F d i && match nth_error F i with Some n => match n_kind n with IsDir _ (_ :: _) => false | _ => true end | None => false end
          then match in_dir u F d (drop x) with Some F' => Some (F', held) | None => None end
          else None
      | _ => None
      end
  | ARename old new =>
      match locate u F old false with
      | Entry d x i =>
          (* the name it gets, if that may be taken *)
          match (match locate u F new false with
                 | Free d' x' => Some (d', x')
                 | Entry d' x' j => if may_remove u F d' j then Some (d', x') else None
                 | _ => None
                 end) with
          | Some (d', x') =>
              if may_remove u F d i then
                match in_dir u F d (drop x) with
                | Some F1 =>
                    match in_dir u F1 d' (fun l => add x' i (drop x' l)) with
                    | Some F2 =>
                        match nth_error F2 i with
                        | Some n =>
                            match n_kind n with
                            | IsDir _ l =>         (* the directory gets another one above it: needs the right to write to it *)
                                if Nat.eqb d d' then Some (F2, held)
                                else if may 1 u n then Some (upd F2 i (with_kind n (IsDir d' l)), held) else None
                            | _ => Some (F2, held)
                            end
                        | None => None
                        end
                    | None => None
                    end
                | None => None
                end
              else None
          | None => None
          end
      | _ => None
      end
  | AChmod p mode =>
      match object u F p with
      | Some (i, n) => if (w_uid u =? 0) || (w_uid u =? n_uid n)
                       then Some (upd F i (mkNode (n_kind n) (n_uid n) (n_gid n) mode), held) else None
      | None => None
      end
  | AChgrp p g =>
      match object u F p with
      | Some (i, n) => if (w_uid u =? 0) || ((w_uid u =? n_uid n) && existsb (Z.eqb g) (w_gids u))
                       then Some (upd F i (mkNode (n_kind n) (n_uid n) g (n_mode n)), held) else None
      | None => None
      end
  end.
(** A call that fails changes nothing. *)
Definition perform (umask : Z) (u : who) (s : fs * list nat) (a : act) : fs * list nat :=
  match does umask u s a with Some s' => s' | None => s end.
Definition performs (umask : Z) (u : who) (s : fs * list nat) (l : list act) : fs * list nat := fold_left (perform umask u) l s.

(** A history of programs of several users and openings of the judger (src/child.c:99, 115), in any order.  Each program
    brings the objects it has open. *)
Inductive event : Type :=
| Runs (umask : Z) (u : who) (held : list nat) (l : list act)
| Opens (umask : Z) (judge : who) (q : str).
Definition happens (F : fs) (e : event) : fs :=
  match e with
  | Runs umask u held l => fst (performs umask u (F, held) l)
  | Opens umask judge q => match open_write umask judge true true F q with Some (F', _) => F' | None => F end
  end.
Definition history (F : fs) (l : list event) : fs := fold_left happens l F.
