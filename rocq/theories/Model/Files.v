(** The contents of files while a judged program runs: what src/child.c:84-126 does to them before
    the start (fopen with "w" truncates), and what the calls of the program do, on top of
    Model/Program.v.

    The kernel's part follows write(2), lseek(2), open(2) and getrlimit(2): a write at or beyond
    RLIMIT_FSIZE raises SIGXFSZ, one that would cross it is shortened.  Simplifications: all files are
    regular files; shared mappings are not modelled (a descriptor open only for writing cannot be
    mapped); a path names the same file all the time. *)
From Coq Require Import ZArith Bool List Ascii String.
From Verif.Base Require Import CInt CStr.
From Verif.Model Require Import Config Runner Seccomp Child Program.
Import ListNotations.
Open Scope list_scope.
Open Scope Z_scope.

(** The contents of a file, the offset of an open file description. *)
Record disk : Type := mkDisk { d_data : nat -> str; d_pos : nat -> nat }.
Definition set_data (D : disk) (f : nat) (l : str) : disk := mkDisk (fun g => if Nat.eqb g f then l else d_data D g) (d_pos D).
Definition set_pos (D : disk) (i : nat) (n : nat) : disk := mkDisk (d_data D) (fun j => if Nat.eqb j i then n else d_pos D j).

Section Files.
(** The file a path names. *)
Variable file_of : str -> nat.
(** Does SIGXFSZ terminate the process (it is neither ignored nor caught)? *)
Variable xfsz : nat -> bool.

Definition file (o : ofile) : nat := file_of (of_path o).
(** fopen: src/child.c:86, 99, 114. *)
Definition opened_on (D : disk) (ev : cevent) : disk :=
  match ev with
  | EvOpen i path m => set_pos (match m with MWrite => set_data D (file_of path) [] | _ => D end) i 0
  | _ => D
  end.
(** The files when the program starts. *)
Definition disk_after (k : kstate) (D : disk) : disk := fold_left opened_on (k_trace k) D.

(** write(2) at [off]: a gap is filled with zeros. *)
Definition write_at (old : str) (off : nat) (new : str) : str :=
  firstn off old ++ repeat NUL (off - List.length old) ++ new ++ skipn (off + List.length new) old.
Definition RLIM_INFINITY : Z := 18446744073709551615.
(** The bytes that the limit leaves of [asked]; [None]: SIGXFSZ, EFBIG. *)
Definition fitting (limit : Z) (pos : nat) (asked : str) : option str :=
  match asked with
  | [] => Some []
  | _ => if limit =? RLIM_INFINITY then Some asked
         else if limit <=? Z.of_nat pos then None
         else Some (firstn (Z.to_nat limit - pos) asked)
  end.
(** Where a write through [o] goes; of descriptions with other modes (MOther) it is not known whether they append. *)
Definition writes_at (D : disk) (o : ofile) (pos : nat) : Prop :=
  match of_mode o with
  | MRead => False
  | MWrite => pos = d_pos D (of_id o)
  | MAppend => pos = List.length (d_data D (file o))
  | MOther => pos = d_pos D (of_id o) \/ pos = List.length (d_data D (file o))
  end.
Definition after_write (D : disk) (o : ofile) (pos : nat) (taken : str) : disk :=
  match taken with
  | [] => D
  | _ => set_pos (set_data D (file o) (write_at (d_data D (file o)) pos taken)) (of_id o) (pos + List.length taken)
  end.
(** The descriptor in the first argument. *)
Definition target (P : proc) (sc : syscall) : option ofile :=
  if sc_arg sc 0 <? 0 then None else fd_get (p_fds P) (Z.to_nat (sc_arg sc 0)).
Definition file_calls : list string := ["write"; "writev"; "lseek"; "read"; "readv"; "open"; "openat"]%string.
Definition O_TRUNC_bit : Z := 9.

(** What happened, and for a write: through what, the bytes asked for, the bytes taken. *)
Record deed : Type := mkDeed { d_event : event; d_wrote : option (ofile * str * str) }.

Inductive fstep (w : world) (D : disk) : deed -> world -> disk -> Prop :=
| f_write p P sc o pos asked fits taken rest :
    w p = Some (inl P) -> filters_action (p_filters P) sc = ActAllow -> In (sc_name sc) ["write"; "writev"]%string ->
    target P sc = Some o -> writes_at D o pos -> fitting (fst (p_rlim P RFsize)) pos asked = Some fits ->
    fits = taken ++ rest ->                         (* fewer bytes if the device is full or a signal comes *)
    fstep w D (mkDeed (Calls p sc) (Some (o, asked, taken))) w (after_write D o pos taken)
| f_over p P sc o pos asked :
    w p = Some (inl P) -> filters_action (p_filters P) sc = ActAllow -> In (sc_name sc) ["write"; "writev"]%string ->
    target P sc = Some o -> writes_at D o pos -> fitting (fst (p_rlim P RFsize)) pos asked = None ->
    fstep w D (mkDeed (Calls p sc) (Some (o, asked, []))) (if xfsz p then put w p (inr (Signaled SIGXFSZ)) else w) D
| f_fails p P sc :                                  (* the call fails, or finds nothing to do *)
    w p = Some (inl P) -> filters_action (p_filters P) sc = ActAllow -> In (sc_name sc) file_calls ->
    fstep w D (mkDeed (Calls p sc) None) w D
| f_seek p P sc o pos :
    w p = Some (inl P) -> filters_action (p_filters P) sc = ActAllow -> sc_name sc = "lseek"%string ->
    target P sc = Some o -> fstep w D (mkDeed (Calls p sc) None) w (set_pos D (of_id o) pos)
| f_read p P sc o pos :
    w p = Some (inl P) -> filters_action (p_filters P) sc = ActAllow -> In (sc_name sc) ["read"; "readv"]%string ->
    target P sc = Some o -> of_mode o = MRead \/ of_mode o = MOther ->
    fstep w D (mkDeed (Calls p sc) None) w (set_pos D (of_id o) pos)
| f_open p P sc flags path id n trunc :
    w p = Some (inl P) -> filters_action (p_filters P) sc = ActAllow ->
    (sc_name sc = "open"%string /\ flags = sc_arg sc 1) \/ (sc_name sc = "openat"%string /\ flags = sc_arg sc 2) ->
    fd_get (p_fds P) n = None -> (trunc = true -> Z.testbit flags O_TRUNC_bit = true) ->
    fstep w D (mkDeed (Calls p sc) None)
      (put w p (inl (with_fds P (fd_set (p_fds P) n (Some (mkOf id path (mode_of flags)))))))
      (set_pos (if trunc then set_data D (file_of path) [] else D) id 0)
| f_rest p P sc w' :
    w p = Some (inl P) -> filters_action (p_filters P) sc = ActAllow -> In (sc_name sc) modelled -> ~ In (sc_name sc) file_calls ->
    executes w p P sc w' -> fstep w D (mkDeed (Calls p sc) None) w' D
| f_other p P sc w' D' :
    w p = Some (inl P) -> filters_action (p_filters P) sc = ActAllow -> ~ In (sc_name sc) modelled ->
    fstep w D (mkDeed (Calls p sc) None) w' D'
| f_denied p P sc w' :
    w p = Some (inl P) -> filters_action (p_filters P) sc <> ActAllow -> step w (Calls p sc) w' ->
    fstep w D (mkDeed (Calls p sc) None) w' D
| f_hit p sig w' : step w (Hit p sig) w' -> fstep w D (mkDeed (Hit p sig) None) w' D.

Inductive fruns (w : world) (D : disk) : list deed -> world -> disk -> Prop :=
| fruns_nil : fruns w D [] w D
| fruns_snoc ds w1 D1 d w2 D2 : fruns w D ds w1 D1 -> fstep w1 D1 d w2 D2 -> fruns w D (ds ++ [d]) w2 D2.
End Files.
