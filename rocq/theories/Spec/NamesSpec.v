(** Where a path leads, and to whom a directory is shut. *)
From Coq Require Import ZArith Bool List Ascii String.
From Verif.Base Require Import CInt CStr.
From Verif.Model Require Import Config Names.
Import ListNotations.
Open Scope list_scope.
Open Scope Z_scope.

(** The right of [u] that [bit] stands for in the nine mode bits (0 search, 1 write, 2 read): root has it; the owner by the first three bits,
    the group by the next, all others by the last. *)
Inductive has_right (bit : Z) (u : who) (n : node) : Prop :=
| by_root : w_uid u = 0 -> has_right bit u n
| by_owner : w_uid u = n_uid n -> Z.testbit (n_mode n) (6 + bit) = true -> has_right bit u n
| by_group : w_uid u <> n_uid n -> In (n_gid n) (w_gids u) -> Z.testbit (n_mode n) (3 + bit) = true -> has_right bit u n
| by_others : w_uid u <> n_uid n -> ~ In (n_gid n) (w_gids u) -> Z.testbit (n_mode n) bit = true -> has_right bit u n.

(** [u] can neither write to it nor grant itself the right to. *)
Definition shut (u : who) (n : node) : Prop := ~ has_right 1 u n /\ w_uid u <> n_uid n.
Definition all_shut (u : who) (F : fs) (ds : list nat) : Prop := forall d n, In d ds -> nth_error F d = Some n -> shut u n.

(** [d] is a directory [u] may search, with the directory [up] above and the entries [l]. *)
Definition searches (u : who) (F : fs) (d up : nat) (l : list (str * nat)) : Prop :=
  exists n, nth_error F d = Some n /\ n_kind n = IsDir up l /\ has_right 0 u n.
Definition a_link (F : fs) (i : nat) (t : str) : Prop := exists n, nth_error F i = Some n /\ n_kind n = IsLink t.
Definition no_link (F : fs) (i : nat) : Prop := exists n, nth_error F i = Some n /\ forall t, n_kind n <> IsLink t.
Definition ordinary_name (x : str) : Prop := x <> lit "." /\ x <> lit "..".

(** From [d] the names [l] lead to the place [p] by way of the directories [ds] and through [k] symbolic links: path_resolution(7). *)
Inductive leads (u : who) (F : fs) : nat -> nat -> list str -> list nat -> place -> Prop :=
| leads_here d : leads u F 0 d [] [] (At d)
| leads_same k d up l rest ds p : searches u F d up l -> leads u F k d rest ds p -> leads u F k d (lit "." :: rest) (d :: ds) p
| leads_up k d up l rest ds p : searches u F d up l -> leads u F k up rest ds p -> leads u F k d (lit ".." :: rest) (d :: ds) p
| leads_free d up l x : searches u F d up l -> ordinary_name x -> entry x l = None -> leads u F 0 d [x] [d] (Free d x)
| leads_entry d up l x i : searches u F d up l -> ordinary_name x -> entry x l = Some i -> no_link F i ->
    leads u F 0 d [x] [d] (Entry d x i)
| leads_into k d up l x i y rest ds p : searches u F d up l -> ordinary_name x -> entry x l = Some i -> no_link F i ->
    leads u F k i (y :: rest) ds p -> leads u F k d (x :: y :: rest) (d :: ds) p
| leads_link k d up l x i t rest ds p : searches u F d up l -> ordinary_name x -> entry x l = Some i -> a_link F i t ->
    leads u F k (if absolute t then 0%nat else d) (components t ++ rest) ds p -> leads u F (S k) d (x :: rest) (d :: ds) p.

(** A path leads to [p] by way of [ds] through [k] links, for [u]. *)
Definition path_leads (u : who) (F : fs) (path : str) (k : nat) (ds : list nat) (p : place) : Prop :=
  leads u F k (origin_of u path) (components path) ds p.

(** [F'] is [F] but for the object [i]. *)
Definition same_but (i : nat) (F F' : fs) : Prop :=
  List.length F' = List.length F /\ forall j, j <> i -> nth_error F' j = nth_error F j.
(** In [F'] the file [i] is empty, the rest is as in [F]. *)
Definition emptied (i : nat) (F F' : fs) : Prop :=
  same_but i F F' /\ exists n data, nth_error F i = Some n /\ n_kind n = IsFile data /\
                              nth_error F' i = Some (mkNode (IsFile []) (n_uid n) (n_gid n) (n_mode n)).
(** In [F'] there is a new empty file of [u] with the name [x] in directory [d], the rest is as in [F]. *)
Definition created (u : who) (mode : Z) (d : nat) (x : str) (F F' : fs) : Prop :=
  exists n up l g, nth_error F d = Some n /\ n_kind n = IsDir up l /\ entry x l = None /\
    nth_error F' d = Some (mkNode (IsDir up (l ++ [(x, List.length F)])) (n_uid n) (n_gid n) (n_mode n)) /\
    nth_error F' (List.length F) = Some (mkNode (IsFile []) (w_uid u) g mode) /\
    List.length F' = S (List.length F) /\
    forall j, j <> d -> j <> List.length F -> nth_error F' j = nth_error F j.

(** The place is that of object [i]. *)
Definition reaches (p : place) (i : nat) : Prop := p = At i \/ exists d x, p = Entry d x i.
(** A device or a pipe. *)
Definition special (i : nat) (F : fs) : Prop := exists n, nth_error F i = Some n /\ n_kind n = IsOther.
(** The effect of fopen with "w" on the path. *)
Definition opened_w (umask : Z) (u : who) (path : str) (F F' : fs) (i : nat) : Prop :=
  exists k ds, (k <= 40)%nat /\
  ((exists p, path_leads u F path k ds p /\ reaches p i /\ (emptied i F F' \/ special i F /\ F' = F)) \/
   (exists d x, path_leads u F path k ds (Free d x) /\ created u (Z.land 438 (Z.lnot umask)) d x F F' /\ i = List.length F)).

(** The effect of fopen with "a": nothing, or a new file. *)
Definition opened_a (umask : Z) (u : who) (path : str) (F F' : fs) (i : nat) : Prop :=
  exists k ds, (k <= 40)%nat /\
  ((exists p, path_leads u F path k ds p /\ reaches p i /\ F' = F) \/
   (exists d x, path_leads u F path k ds (Free d x) /\ created u (Z.land 438 (Z.lnot umask)) d x F F' /\ i = List.length F)).

(** A file is as it was: contents, owner and mode. *)
Definition untouched (i : nat) (F F' : fs) : Prop := nth_error F' i = nth_error F i.
Definition only_opens (l : list act) : Prop := forall a, In a l -> (exists p c t, a = AOpen p c t) \/ exists i data, a = AStore i data.

(** The system calls that give, change or take names, or change rights (those with a path). *)
Definition name_calls : list string :=
  ["symlink"; "symlinkat"; "link"; "linkat"; "rename"; "renameat"; "renameat2"; "unlink"; "unlinkat"; "rmdir"; "mkdir"; "mkdirat";
   "mknod"; "mknodat"; "chmod"; "fchmodat"; "chown"; "lchown"; "fchownat"]%string.

(** All programs of a history belong to users to whom the directories are shut. *)
Definition outsiders (F : fs) (ds : list nat) (l : list event) : Prop :=
  forall umask u held acts, In (Runs umask u held acts) l -> all_shut u F ds.
