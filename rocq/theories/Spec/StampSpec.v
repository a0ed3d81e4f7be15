(** The calendar, and what a log says. *)
From Coq Require Import ZArith NArith Bool List Ascii String.
From Verif.Base Require Import CInt CStr.
From Verif.Model Require Import Logger Stamp.
From Verif.Spec Require Import IntText LogSpec.
Import ListNotations.
Open Scope list_scope.
Open Scope Z_scope.

(** ** The calendar *)
Definition leap (y : Z) : bool := (y mod 4 =? 0) && (negb (y mod 100 =? 0) || (y mod 400 =? 0)).
Definition month_length (y m : Z) : Z :=
  if m =? 2 then (if leap y then 29 else 28) else if (m =? 4) || (m =? 6) || (m =? 9) || (m =? 11) then 30 else 31.

Definition date : Type := Z * Z * Z.
Definition tomorrow (x : date) : date :=
  let '(y, m, d) := x in
  if d <? month_length y m then (y, m, d + 1) else if m <? 12 then (y, m + 1, 1) else (y + 1, 1, 1).

(** The [n]-th day after the first of January 1970. *)
Definition nth_day (n : Z) : date := Z.iter n tomorrow (1970, 1, 1).

(** ** Time stamps *)
Definition two (v : Z) : str := decimal (v / 10) ++ decimal (v mod 10).
Definition stamp (x : date) (h mi s : Z) : str :=
  let '(y, m, d) := x in
  decimal y ++ lit "-" ++ two m ++ lit "-" ++ two d ++ lit " " ++ two h ++ lit ":" ++ two mi ++ lit ":" ++ two s.

(** The clocks show [l] seconds since the first of January 1970, 00:00:00; before the year 10000. *)
Definition our_times (l : Z) : Prop := 0 <= l < 253402300800.
Definition local (zone : Z -> Z) (t : Z) : Z := t + zone t.
Definition stamp_of (l : Z) : str := stamp (nth_day (l / 86400)) (l mod 86400 / 3600) (l mod 3600 / 60) (l mod 60).

(** [a] comes before [b] when texts are sorted. *)
Definition sorts_before (a b : str) : Prop :=
  exists p x y a' b', a = p ++ x :: a' /\ b = p ++ y :: b' /\ (code x < code y)%N.

(** ** Failures *)
(** A failure as it can occur: at an acceptable time, in a file whose name has no colon, newline or NUL, with one of
    the codes, and a reason without newline or NUL. *)
Definition name_ok (s : str) : Prop := ~ In ":"%char s /\ ~ In "010"%char s /\ no_nul s.
Definition possible (zone : Z -> Z) (f : failure) : Prop :=
  match f with
  | RunFails source line now code => name_ok source /\ is_int line /\ our_times (local zone now) /\ In code logged_codes
  | ChildFails source line now reason code =>
      name_ok source /\ is_int line /\ our_times (local zone now) /\ ~ In "010"%char reason /\ no_nul reason /\ In code logged_codes
  end.

(** Its texts are not too long for the buffers (C51). *)
Definition brief (f : failure) : Prop :=
  match f with
  | RunFails s _ _ _ => (N.of_nat (List.length s) <= 4096)%N
  | ChildFails s _ _ r _ => (N.of_nat (List.length s) <= 4096)%N /\ (List.length r <= 1000)%nat
  end.

(** Two failures that look alike: everything is the same, except that the moments are only known by the clock. *)
Definition looks_like (zone : Z -> Z) (f g : failure) : Prop :=
  match f, g with
  | RunFails s1 l1 t1 c1, RunFails s2 l2 t2 c2 => s1 = s2 /\ l1 = l2 /\ local zone t1 = local zone t2 /\ c1 = c2
  | ChildFails s1 l1 t1 r1 c1, ChildFails s2 l2 t2 r2 c2 =>
      s1 = s2 /\ l1 = l2 /\ local zone t1 = local zone t2 /\ r1 = r2 /\ c1 = c2
  | _, _ => False
  end.

(** The text of the failures [fs], one line each. *)
Inductive log_of (zone : Z -> Z) : list failure -> str -> Prop :=
| log_none : log_of zone [] []
| log_more f fs l rest : asks_line (failure_call zone f) l -> log_of zone fs rest -> log_of zone (f :: fs) (l ++ rest).
