(** Integer option values: src/argtable3.c:3076-3236 and the strtol of glibc it
    calls (C locale, C99 mode: no 0b prefix).  A position in a string is the
    suffix that begins there; a conversion that leaves [*endptr == str] is [None].
    The strings are NUL terminated in C; reading the terminator is reading past
    the end of the list here. *)
From Coq Require Import ZArith Bool List Ascii String.
From Verif.Base Require Import CInt CStr.
Import ListNotations.
Open Scope list_scope.
Open Scope Z_scope.

(** The loop skipping white space, lines 3092-3093, 3160-3161 and in strtol. *)
Fixpoint skip_space (s : str) : str :=
  match s with
  | c :: r => if isspace c then skip_space r else s
  | [] => []
  end.

(** The sign character, lines 3097-3109 and in strtol. *)
Definition sign_of (s : str) : Z * str :=
  match s with
  | c :: r => if aeqb c "+"%char then (1, r) else if aeqb c "-"%char then (-1, r) else (1, s)
  | [] => (1, [])
  end.

(** strtol: the value of a digit, 0-9, a-z, A-Z. *)
Definition digit_of (base : Z) (c : ascii) : option Z :=
  let n := Z.of_N (code c) in
  let d := if (48 <=? n) && (n <=? 57) then n - 48
           else if (97 <=? n) && (n <=? 122) then n - 87
           else if (65 <=? n) && (n <=? 90) then n - 55
           else base in
  if d <? base then Some d else None.

(** strtol: the longest run of digits. *)
Fixpoint span_digits (base : Z) (s : str) : list Z * str :=
  match s with
  | c :: r =>
      match digit_of base c with
      | Some d => let (ds, rest) := span_digits base r in (d :: ds, rest)
      | None => ([], s)
      end
  | [] => ([], [])
  end.

Definition digits_val (base : Z) (ds : list Z) : Z := fold_left (fun a d => a * base + d) ds 0.

(** strtol: LONG_MIN / LONG_MAX on overflow. *)
Definition clamp_long (z : Z) : Z :=
  if z <? LONG_MIN then LONG_MIN else if LONG_MAX <? z then LONG_MAX else z.

(** strtol: base 16 skips one 0x or 0X. *)
Definition skip_0x (base : Z) (s : str) : bool * str :=
  match s with
  | z :: x :: r =>
      if (base =? 16) && aeqb z "0"%char && aeqb (toupper x) "X"%char then (true, r) else (false, s)
  | _ => (false, s)
  end.

Definition strtol (base : Z) (s : str) : option (Z * str) :=
  let (sg, s2) := sign_of (skip_space s) in
  let (skipped, s3) := skip_0x base s2 in
  let (ds, rest) := span_digits base s3 in
  match ds with
  | [] => if skipped then Some (0, tl s2) else None   (* "0x" without digits: 0, end at the x *)
  | _ => Some (clamp_long (sg * digits_val base ds), rest)
  end.

(** src/argtable3.c:3086-3136.  [s * val] overflows for s = -1, val = LONG_MIN. *)
Definition strtol0X (s : str) (X : ascii) (base : Z) : cres (option (Z * str)) :=
  let (sg, s2) := sign_of (skip_space s) in
  match s2 with
  | z :: x :: r =>
      if aeqb z "0"%char && aeqb (toupper x) (toupper X) then
        match strtol base r with
        | Some (v, rest) => cbind (long_op (sg * v)) (fun p => Val (Some (p, rest)))
        | None => Val None
        end
      else Val None
  | _ => Val None
  end.

(** src/argtable3.c:3140-3165. *)
Fixpoint detectsuffix (s suffix : str) : bool :=
  match suffix with
  | [] => match s with [] => true | _ => match skip_space s with [] => true | _ => false end end
  | x :: suffix' =>
      match s with
      | c :: s' => if aeqb (toupper c) (toupper x) then detectsuffix s' suffix' else false
      | [] => false
      end
  end.

Definition ARG_ERR_MINCOUNT : Z := 1.
Definition ARG_ERR_MAXCOUNT : Z := 2.
Definition ARG_ERR_BADINT : Z := 3.
Definition ARG_ERR_OVERFLOW : Z := 4.

(** A stored value or an error code. *)
Inductive scanned : Type := Stored (v : Z) | Failed (code : Z).

(** Lines 3201-3231, after the conversion to [val], [end]. *)
Definition scale (val : Z) (end_ : str) : scanned :=
  let errorcode := if (INT_MAX <? val) || (val <? INT_MIN) then ARG_ERR_OVERFLOW else 0 in
  let scaled (m : Z) :=
    if (cdiv INT_MAX m <? val) || (val <? cdiv INT_MIN m) then (ARG_ERR_OVERFLOW, val)
    else (errorcode, val * m) in
  let (errorcode, val) :=
    if detectsuffix end_ (lit "KB") then scaled 1024
    else if detectsuffix end_ (lit "MB") then scaled 1048576
    else if detectsuffix end_ (lit "GB") then scaled 1073741824
    else if negb (detectsuffix end_ []) then (ARG_ERR_BADINT, val)
    else (errorcode, val) in
  if errorcode =? 0 then Stored (cast_int val) else Failed errorcode.

(** src/argtable3.c:3178-3232: the conversion in arg_int_scanfn. *)
Definition scan_int (argval : str) : cres scanned :=
  cbind (strtol0X argval "X" 16) (fun r => match r with Some (v, e) => Val (scale v e) | None =>
  cbind (strtol0X argval "O" 8) (fun r => match r with Some (v, e) => Val (scale v e) | None =>
  cbind (strtol0X argval "B" 2) (fun r => match r with Some (v, e) => Val (scale v e) | None =>
  match strtol 10 argval with
  | Some (v, e) => Val (scale v e)
  | None => Val (Failed ARG_ERR_BADINT)
  end end) end) end).
