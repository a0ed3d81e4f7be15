(** The time stamps in the log: src/logger.c:41-43,
      now = time(NULL);
      strftime(datetime, 99, "%Y-%m-%d %H:%M:%S", localtime(&now));
    and what the C library does there.  Model/Logger.v takes the text as given. *)
From Coq Require Import ZArith Bool List Ascii String.
From Verif.Base Require Import CInt CStr CMem Tm.
From Verif.Model Require Import Messages Logger.
Import ListNotations.
Open Scope list_scope.
Open Scope Z_scope.

(** Year, month (1 to 12) and day of the [n]-th day after 1970-01-01, as the C library counts: eras of 400 years that
    begin with a March. *)
Definition civil (n : Z) : Z * Z * Z :=
  let z := n + 719468 in
  let era := z / 146097 in
  let doe := z mod 146097 in
  let yoe := (doe - doe / 1460 + doe / 36524 - doe / 146096) / 365 in
  let doy := doe - (365 * yoe + yoe / 4 - yoe / 100) in
  let mp := (5 * doy + 2) / 153 in
  let d := doy - (153 * mp + 2) / 5 + 1 in
  let m := if mp <? 10 then mp + 3 else mp - 9 in
  (yoe + era * 400 + (if m <=? 2 then 1 else 0), m, d).

(** localtime: [zone t] is how many seconds the local time is ahead of UTC at the moment [t].  [None] (a null pointer)
    if the year does not fit its member.  tm_yday and tm_isdst, which nothing here reads, are left 0. *)
Definition localtime (zone : Z -> Z) (t : Z) : option tm :=
  let l := t + zone t in
  let days := l / 86400 in
  let rem := l mod 86400 in
  let '(y, m, d) := civil days in
  let year := y - 1900 in
  if (INT_MIN <=? year) && (year <=? INT_MAX)
  then Some (mkTm (rem mod 60) (rem mod 3600 / 60) (rem / 3600) d (m - 1) year ((4 + days) mod 7) 0 0)
  else None.

(** strftime's two digits. *)
Definition two_digits (v : Z) : str := (if v <? 10 then lit "0" else []) ++ fmt_d v.

(** strftime, for the conversions of the format in src/logger.c:43; another one is [None].  The year is not padded (C
    libraries differ for years below 1000). *)
Fixpoint strftime_text (fmt : str) (t : tm) : option str :=
  match fmt with
  | [] => Some []
  | "%"%char :: c :: fmt =>
      match (if aeqb c "Y" then Some (fmt_d (tm_year t + 1900))
             else if aeqb c "m" then Some (two_digits (tm_mon t + 1))
             else if aeqb c "d" then Some (two_digits (tm_mday t))
             else if aeqb c "H" then Some (two_digits (tm_hour t))
             else if aeqb c "M" then Some (two_digits (tm_min t))
             else if aeqb c "S" then Some (two_digits (tm_sec t))
             else None), strftime_text fmt t with
      | Some s, Some rest => Some (s ++ rest)
      | _, _ => None
      end
  | c :: fmt => match strftime_text fmt t with Some rest => Some (c :: rest) | None => None end
  end.

(** src/logger.c:43: the format. *)
Definition log_format : str := lit "%Y-%m-%d %H:%M:%S".

(** What is printed for the moment [now]. *)
Definition log_date (zone : Z -> Z) (now : Z) : option str :=
  match localtime zone now with Some t => strftime_text log_format t | None => None end.

(** ERROR_EXIT (src/runner.h:36-44) and CHILD_ERROR_EXIT (src/child.h:7-19) at the moment [now]. *)
Inductive failure :=
| RunFails (source : str) (line : Z) (now : Z) (code : string)
| ChildFails (source : str) (line : Z) (now : Z) (reason : str) (code : string).

Definition failure_call (zone : Z -> Z) (f : failure) : call :=
  match f with
  | RunFails source line now code => error_exit_call source line (log_date zone now) code
  | ChildFails source line now reason code => child_error_exit_call source line (log_date zone now) reason code
  end.
