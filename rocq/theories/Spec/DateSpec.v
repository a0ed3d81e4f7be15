(** Formats of dates and times, what they read, and dates written in them.  Nothing here refers to
    the model. *)
From Coq Require Import ZArith NArith Bool List Ascii String.
From Verif.Base Require Import CStr Tm.
Import ListNotations.
Open Scope list_scope.

(** ** Formats *)
Inductive part :=
  | Space | Same (c : ascii)                       (* white space, if any; this character *)
  | Year | YearOf100 | Century | Month | Day | DayOfYear | DayOfWeek | Week | Hour | Hour12 | Minute | Second
  | MonthName | DayName | Half.                    (* names; AM or PM *)
Definition date_parts : list part := [Month; Same "/"; Day; Same "/"; YearOf100].
Definition time_parts : list part := [Hour; Same ":"; Minute; Same ":"; Second].
(** The conversions, the modifiers that may stand before them, and what they mean. *)
Definition conversions : list (ascii * (str * list part)) :=
  [("%", (lit "EO", [Same "%"]));
   ("c", (lit "E", date_parts ++ [Space] ++ time_parts)); ("D", ([], date_parts)); ("R", ([], [Hour; Same ":"; Minute]));
   ("r", ([], [Hour12; Same ":"; Minute; Same ":"; Second; Space; Half])); ("T", ([], time_parts));
   ("X", (lit "E", time_parts)); ("x", (lit "E", date_parts));
   ("A", ([], [DayName])); ("a", ([], [DayName])); ("B", ([], [MonthName])); ("b", ([], [MonthName])); ("h", ([], [MonthName]));
   ("C", (lit "E", [Century])); ("d", (lit "O", [Day])); ("e", (lit "O", [Day]));
   ("k", ([], [Hour])); ("H", (lit "O", [Hour])); ("l", ([], [Hour12])); ("I", (lit "O", [Hour12]));
   ("j", ([], [DayOfYear])); ("M", (lit "O", [Minute])); ("m", (lit "O", [Month])); ("p", ([], [Half]));
   ("S", (lit "O", [Second])); ("U", (lit "O", [Week])); ("W", (lit "O", [Week])); ("w", (lit "O", [DayOfWeek]));
   ("Y", (lit "E", [Year])); ("y", (lit "EO", [YearOf100])); ("n", ([], [Space])); ("t", ([], [Space]))]%char.
Fixpoint lookup {A} (c : ascii) (l : list (ascii * A)) : option A :=
  match l with [] => None | (d, a) :: l => if aeqb c d then Some a else lookup c l end.
Definition conversion (modifier : option ascii) (c : ascii) : option (list part) :=
  match lookup c conversions with
  | Some (allowed, ps) =>
      match modifier with
      | None => Some ps
      | Some m => if existsb (aeqb m) allowed then Some ps else None
      end
  | None => None
  end.
(** What a format means; [None] if it is none. *)
Definition behind (o : option (list part)) (rest : option (list part)) : option (list part) :=
  match o, rest with Some a, Some b => Some (a ++ b) | _, _ => None end.
Fixpoint parts_of (fmt : str) : option (list part) :=
  match fmt with
  | [] => Some []
  | c :: fmt1 =>
      if isspace c then behind (Some [Space]) (parts_of fmt1)
      else if aeqb c "%" then
        match fmt1 with
        | [] => None
        | d :: fmt2 =>
            if aeqb d "E" || aeqb d "O" then
              match fmt2 with [] => None | e :: fmt3 => behind (conversion (Some d) e) (parts_of fmt3) end
            else behind (conversion None d) (parts_of fmt2)
        end
      else behind (Some [Same c]) (parts_of fmt1)
  end.

(** ** Reading *)
Definition digit (c : ascii) : Prop := (48 <= code c <= 57)%N.
Definition value (ds : str) : Z := fold_left (fun v d => v * 10 + (Z.of_N (code d) - 48))%Z ds 0%Z.
(** The number of digits of [hi]. *)
Definition width (hi : Z) : nat := if (hi <=? 9)%Z then 1 else if (hi <=? 99)%Z then 2 else if (hi <=? 999)%Z then 3 else 4.
Definition starts (P : ascii -> Prop) (s : str) : Prop := match s with [] => False | c :: _ => P c end.
(** [ds] is the number [v] between [lo] and [hi], with all the digits in front of [rest] that a number
    up to [hi] could have. *)
Definition number (lo hi : Z) (ds rest : str) (v : Z) : Prop :=
  ds <> [] /\ Forall digit ds /\ value ds = v /\ (lo <= v <= hi)%Z /\ List.length ds <= width hi /\
  (List.length ds = width hi \/ (hi < v * 10)%Z \/ ~ starts digit rest).
(** Without regard to case. *)
Definition same_letters (a b : str) : Prop := map toupper a = map toupper b.
Definition month_names : list str := map lit ["January"; "February"; "March"; "April"; "May"; "June"; "July"; "August";
  "September"; "October"; "November"; "December"]%string.
Definition day_names : list str := map lit ["Sunday"; "Monday"; "Tuesday"; "Wednesday"; "Thursday"; "Friday"; "Saturday"]%string.
(** The name or its first three letters, unless the name itself stands there. *)
Definition named (names : list str) (w rest : str) (i : Z) : Prop :=
  exists n, nth_error names (Z.to_nat i) = Some n /\ (0 <= i)%Z /\
  (same_letters w n \/ same_letters w (firstn 3 n) /\ ~ exists x y, w ++ rest = x ++ y /\ same_letters x n).
(** [p] takes [w] when [rest] follows, and changes the time [t] to [t']. *)
Definition takes (p : part) (w rest : str) (t t' : tm) : Prop :=
  match p with
  | Space => Forall (fun c => isspace c = true) w /\ ~ starts (fun c => isspace c = true) rest /\ t' = t
  | Same c => w = [c] /\ t' = t
  | Year => exists v, number 0 9999 w rest v /\ t' = set_year (v - 1900) t
  | YearOf100 => exists v, number 0 99 w rest v /\ t' = set_year (if (v <? 69)%Z then v + 100 else v) t
  | Century => False
  | Month => exists v, number 1 12 w rest v /\ t' = set_mon (v - 1) t
  | Day => exists v, number 1 31 w rest v /\ t' = set_mday v t
  | DayOfYear => exists v, number 1 366 w rest v /\ t' = set_yday (v - 1) t
  | DayOfWeek => exists v, number 0 6 w rest v /\ t' = set_wday v t
  | Week => exists v, number 0 53 w rest v /\ t' = t
  | Hour => exists v, number 0 23 w rest v /\ t' = set_hour v t
  | Hour12 => exists v, number 1 12 w rest v /\ t' = set_hour (v mod 12) t
  | Minute => exists v, number 0 59 w rest v /\ t' = set_min v t
  | Second => exists v, number 0 61 w rest v /\ t' = set_sec v t
  | MonthName => exists i, named month_names w rest i /\ t' = set_mon i t
  | DayName => exists i, named day_names w rest i /\ t' = set_wday i t
  | Half => rest = [] /\ (tm_hour t <= 11)%Z /\
            (same_letters w (lit "AM") /\ t' = t \/ same_letters w (lit "PM") /\ t' = set_hour (tm_hour t + 12) t)
  end.
(** Reading one part behind the other, up to [rest]. *)
Inductive reads : list part -> str -> tm -> str -> tm -> Prop :=
  | reads_all rest t : reads [] rest t rest t
  | reads_part p ps w text t t1 rest t' :
      takes p w text t t1 -> reads ps text t1 rest t' -> reads (p :: ps) (w ++ text) t rest t'.
(** The formats the claims are about: no century, and at most one year without it. *)
Definition is_year100 (p : part) : bool := match p with YearOf100 => true | _ => false end.
Definition one_year (ps : list part) : Prop := ~ In Century ps /\ List.length (filter is_year100 ps) <= 1.

(** ** Writing *)
(** Years, months and days as people count them. *)
Record date := mkDate { year : Z; month : Z; mday : Z; yday : Z; wday : Z; hour : Z; minute : Z; second : Z }.
Definition valid (d : date) : Prop :=
  (0 <= year d <= 9999 /\ 1 <= month d <= 12 /\ 1 <= mday d <= 31 /\ 1 <= yday d <= 366 /\ 0 <= wday d <= 6 /\
   0 <= hour d <= 23 /\ 0 <= minute d <= 59 /\ 0 <= second d <= 61)%Z.
Definition figure (v : Z) : ascii := ascii_of_N (Z.to_N (48 + v mod 10)).
Definition two (v : Z) : str := [figure (v / 10); figure v].
Definition letter (c : ascii) : Prop := (65 <= code c <= 90 \/ 97 <= code c <= 122)%N.
(** [w] is how [p] is written for [d] when [rest] follows: as strftime does, numbers with leading zeros. *)
Definition written (p : part) (d : date) (w rest : str) : Prop :=
  match p with
  | Space => w = lit " " /\ ~ starts (fun c => isspace c = true) rest
  | Same c => w = [c]
  | Year => w = two (year d / 100) ++ two (year d mod 100)
  | YearOf100 => w = two (year d mod 100) /\ (1969 <= year d <= 2068)%Z
  | Century | Week => False
  | Month => w = two (month d)
  | Day => w = two (mday d)
  | DayOfYear => w = figure (yday d / 100) :: two (yday d mod 100)
  | DayOfWeek => w = [figure (wday d)]
  | Hour => w = two (hour d)
  | Hour12 => w = two (if (hour d mod 12 =? 0)%Z then 12 else hour d mod 12)
  | Minute => w = two (minute d)
  | Second => w = two (second d)
  | MonthName => exists n, nth_error month_names (Z.to_nat (month d - 1)) = Some n /\ (w = n \/ w = firstn 3 n /\ ~ starts letter rest)
  | DayName => exists n, nth_error day_names (Z.to_nat (wday d)) = Some n /\ (w = n \/ w = firstn 3 n /\ ~ starts letter rest)
  | Half => rest = [] /\ w = (if (hour d <? 12)%Z then lit "AM" else lit "PM")
  end.
Inductive written_all (d : date) : list part -> str -> Prop :=
  | written_none : written_all d [] []
  | written_part p ps w text : written p d w text -> written_all d ps text -> written_all d (p :: ps) (w ++ text).
(** The hour by the clock of twelve comes with the half of the day at the end, the other one without. *)
Definition clock (ps : list part) : Prop := ~ In Hour12 ps /\ ~ In Half ps \/ ~ In Hour ps /\ In Hour12 ps /\ In Half ps.

(** Afterwards a member of the time is that of the date if the format has it, what it was otherwise. *)
Definition has (ps : list part) (which : list part) : Prop := exists p, In p which /\ In p ps.
Definition told (b : Prop) (v new old : Z) : Prop := (b -> v = new) /\ (~ b -> v = old).
Definition same_date (ps : list part) (d : date) (t t' : tm) : Prop :=
  told (has ps [Year; YearOf100]) (tm_year t') (year d - 1900) (tm_year t) /\
  told (has ps [Month; MonthName]) (tm_mon t') (month d - 1) (tm_mon t) /\
  told (has ps [Day]) (tm_mday t') (mday d) (tm_mday t) /\
  told (has ps [DayOfYear]) (tm_yday t') (yday d - 1) (tm_yday t) /\
  told (has ps [DayOfWeek; DayName]) (tm_wday t') (wday d) (tm_wday t) /\
  told (has ps [Hour; Hour12]) (tm_hour t') (hour d) (tm_hour t) /\
  told (has ps [Minute]) (tm_min t') (minute d) (tm_min t) /\
  told (has ps [Second]) (tm_sec t') (second d) (tm_sec t) /\
  tm_isdst t' = tm_isdst t.

(** The array [a'] is [a] with [t] at [i]. *)
Definition slot (a : list tm) (i : nat) (t : tm) (a' : list tm) : Prop :=
  List.length a' = List.length a /\ nth_error a' i = Some t /\ forall k, k <> i -> nth_error a' k = nth_error a k.
