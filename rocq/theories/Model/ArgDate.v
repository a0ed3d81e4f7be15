(** arg_date: src/argtable3.c:2010-2034, 2152-2535.

    Simplifications: the texts hold no NUL byte; a pointer into one is what is left of it, and the
    terminator is read behind that ([cur []]); ctype is that of the C locale, where bytes from 128 on
    are in no class (they are negative as char).  The recursion is bounded by [fuel]. *)
From Coq Require Import ZArith Bool List Ascii String.
From Verif.Base Require Import CInt CStr CMem Tm.
From Verif.Model Require Import ArgInt.
Import ListNotations.
Open Scope list_scope.
Open Scope Z_scope.

(** The character a pointer points to. *)
Definition cur (s : str) : ascii := match s with [] => NUL | c :: _ => c end.
Definition is_digit (c : ascii) : bool := (N.leb 48 (code c) && N.leb (code c) 57)%bool.
(** [c - '0'] for a digit. *)
Definition minus_0 (c : ascii) : Z := Z.of_N (code c) - 48.
(** tolower in the C locale. *)
Definition tolower (c : ascii) : ascii :=
  if (N.leb 65 (code c) && N.leb (code c) 90)%bool then ascii_of_N (code c + 32) else c.

(** Lines 2157-2165. *)
Definition ALT_E : Z := 1.
Definition ALT_O : Z := 2.
Definition legal_alt (alt_format x : Z) : bool := Z.land alt_format (Z.lnot x) =? 0.
Definition TM_YEAR_BASE : Z := 1900.

(** Lines 2175-2184. *)
Definition day : list str := map lit ["Sunday"; "Monday"; "Tuesday"; "Wednesday"; "Thursday"; "Friday"; "Saturday"]%string.
Definition abday : list str := map lit ["Sun"; "Mon"; "Tue"; "Wed"; "Thu"; "Fri"; "Sat"]%string.
Definition mon : list str := map lit ["January"; "February"; "March"; "April"; "May"; "June";
  "July"; "August"; "September"; "October"; "November"; "December"]%string.
Definition abmon : list str := map lit ["Jan"; "Feb"; "Mar"; "Apr"; "May"; "Jun"; "Jul"; "Aug"; "Sep"; "Oct"; "Nov"; "Dec"]%string.
Definition am : str := lit "AM".
Definition pm_ : str := lit "PM".

(** [arg_strcasecmp(s1, s2) == 0], lines 2186-2194. *)
Fixpoint strcaseeq (s1 s2 : str) : bool :=
  match s1, s2 with
  | [], [] => true
  | c :: s1, d :: s2 => aeqb (tolower c) (tolower d) && strcaseeq s1 s2
  | _, _ => false
  end.
(** [arg_strncasecmp(s1, s2, n) == 0], lines 2196-2210. *)
Fixpoint strncaseeq (s1 s2 : str) (n : nat) : bool :=
  match n with
  | O => true
  | S n => if aeqb (tolower (cur s1)) (tolower (cur s2))
           then if aeqb (cur s1) NUL then true else strncaseeq (tl s1) (tl s2) n
           else false
  end.

(** The loop of conv_num, lines 2520-2524: at a digit. *)
Fixpoint conv_loop (buf : str) (result rulim ulim : Z) : cres (Z * str) :=
  match buf with
  | [] => UB
  | c :: buf =>
      cbind (int_op (result * 10)) (fun r =>
      cbind (int_op (r + minus_0 c)) (fun result =>
      let rulim := Z.quot rulim 10 in
      cbind (int_op (result * 10)) (fun r10 =>
      if (r10 <=? ulim) && negb (rulim =? 0) && is_digit (cur buf) then conv_loop buf result rulim ulim else Val (result, buf))))
  end.
(** conv_num, lines 2511-2531: [None] for 0, otherwise [*dest] and [*buf]. *)
Definition conv_num (buf : str) (llim ulim : Z) : cres (option (Z * str)) :=
  if negb (is_digit (cur buf)) then Val None
  else cbind (conv_loop buf 0 ulim ulim) (fun '(result, buf) =>
       Val (if (result <? llim) || (ulim <? result) then None else Some (result, buf))).

(** The loops of %a and %b, lines 2316-2326 and 2340-2350: [i] and [len]. *)
Fixpoint find_name (full ab : list str) (i : Z) (bp : str) : option (Z * nat) :=
  match full, ab with
  | f :: full, a :: ab =>
      if strncaseeq f bp (List.length f) then Some (i, List.length f)
      else if strncaseeq a bp (List.length a) then Some (i, List.length a)
      else find_name full ab (i + 1) bp
  | _, _ => None
  end.
(** Lines 2225-2226 and 2498-2499. *)
Fixpoint skip_space (bp : str) : str :=
  match bp with [] => [] | c :: rest => if isspace c then skip_space rest else bp end.
(** Lines 2235-2256: the modifiers; [alt_format] and the conversion, [None] if NULL is returned. *)
Fixpoint modifiers (alt_format : Z) (fmt : str) : option (Z * ascii * str) :=
  match fmt with
  | [] => None
  | c :: fmt =>
      if aeqb c "E" then if legal_alt alt_format 0 then modifiers (Z.lor alt_format ALT_E) fmt else None
      else if aeqb c "O" then if legal_alt alt_format 0 then modifiers (Z.lor alt_format ALT_O) fmt else None
      else Some (alt_format, c, fmt)
  end.

(** What arg_strptime can do: return; be undefined; need more [fuel]. *)
Inductive dres (A : Type) : Type := DRet (a : A) | DUB | DOut.
Arguments DRet {A} a. Arguments DUB {A}. Arguments DOut {A}.
Definition dbind {A B} (m : dres A) (k : A -> dres B) : dres B := match m with DRet a => k a | DUB => DUB | DOut => DOut end.
Definition dlift {A} (r : cres A) : dres A := match r with Val a => DRet a | UB => DUB end.

(** arg_strptime, lines 2212-2509: [None] for NULL, otherwise what is left of the text, and [*tm].
    (After NULL the caller drops [*tm].)  [split_year] belongs to the call. *)
Fixpoint strptime (fuel : nat) (bp fmt : str) (t : tm) (split_year : bool) : dres (option (str * tm)) :=
  match fuel with
  | O => DOut
  | S fuel =>
      match fmt with
      | [] => DRet (Some (bp, t))
      | c :: fmt =>
          let literal (c : ascii) (fmt : str) :=
            if aeqb c (cur bp) then match bp with [] => DUB | _ :: bp => strptime fuel bp fmt t split_year end else DRet None in
          if isspace c then strptime fuel (skip_space bp) fmt t split_year
          else if negb (aeqb c "%") then literal c fmt
          else match modifiers 0 fmt with
               | None => DRet None
               | Some (alt, c, fmt) =>
                   let parts (x : Z) (f : string) :=
                     if legal_alt alt x then
                       dbind (strptime fuel bp (lit f) t false) (fun r =>
                       match r with None => DRet None | Some (bp, t) => strptime fuel bp fmt t split_year end)
                     else DRet None in
                   let number (x lo hi : Z) (k : Z -> dres tm) (split_year : bool) :=
                     if legal_alt alt x then
                       dbind (dlift (conv_num bp lo hi)) (fun r =>
                       match r with
                       | None => DRet None
                       | Some (i, bp) => dbind (k i) (fun t => strptime fuel bp fmt t split_year)
                       end)
                     else DRet None in
                   let name (full ab : list str) (k : Z -> tm) :=
                     if legal_alt alt 0 then
                       match find_name full ab 0 bp with
                       | None => DRet None
                       | Some (i, len) => strptime fuel (skipn len bp) fmt (k i) split_year
                       end
                     else DRet None in
                   if aeqb c "%" then literal c fmt
                   else if aeqb c "c" then parts ALT_E "%x %X"%string
                   else if aeqb c "D" then parts 0 "%m/%d/%y"%string
                   else if aeqb c "R" then parts 0 "%H:%M"%string
                   else if aeqb c "r" then parts 0 "%I:%M:%S %p"%string
                   else if aeqb c "T" then parts 0 "%H:%M:%S"%string
                   else if aeqb c "X" then parts ALT_E "%H:%M:%S"%string
                   else if aeqb c "x" then parts ALT_E "%m/%d/%y"%string
                   else if aeqb c "A" || aeqb c "a" then name day abday (fun i => set_wday i t)
                   else if aeqb c "B" || aeqb c "b" || aeqb c "h" then name mon abmon (fun i => set_mon i t)
                   else if aeqb c "C" then
                     number ALT_E 0 99 (fun i =>
                       dlift (cbind (int_op (i * 100)) (fun h =>
                              if split_year then cbind (int_op (Z.rem (tm_year t) 100 + h)) (fun y => Val (set_year y t))
                              else Val (set_year h t)))) true
                   else if aeqb c "d" || aeqb c "e" then number ALT_O 1 31 (fun i => DRet (set_mday i t)) split_year
                   else if aeqb c "k" && negb (legal_alt alt 0) then DRet None
                   else if aeqb c "k" || aeqb c "H" then number ALT_O 0 23 (fun i => DRet (set_hour i t)) split_year
                   else if aeqb c "l" && negb (legal_alt alt 0) then DRet None
                   else if aeqb c "l" || aeqb c "I" then
                     number ALT_O 1 12 (fun i => DRet (set_hour (if i =? 12 then 0 else i) t)) split_year
                   else if aeqb c "j" then number 0 1 366 (fun i => DRet (set_yday (i - 1) t)) split_year
                   else if aeqb c "M" then number ALT_O 0 59 (fun i => DRet (set_min i t)) split_year
                   else if aeqb c "m" then number ALT_O 1 12 (fun i => DRet (set_mon (i - 1) t)) split_year
                   else if aeqb c "p" then
                     if legal_alt alt 0 then
                       if strcaseeq am bp then
                         if 11 <? tm_hour t then DRet None else strptime fuel (skipn (List.length am) bp) fmt t split_year
                       else if strcaseeq pm_ bp then
                         if 11 <? tm_hour t then DRet None
                         else dbind (dlift (int_op (tm_hour t + 12))) (fun h =>
                              strptime fuel (skipn (List.length pm_) bp) fmt (set_hour h t) split_year)
                       else DRet None
                     else DRet None
                   else if aeqb c "S" then number ALT_O 0 61 (fun i => DRet (set_sec i t)) split_year
                   else if aeqb c "U" || aeqb c "W" then number ALT_O 0 53 (fun i => DRet t) split_year
                   else if aeqb c "w" then number ALT_O 0 6 (fun i => DRet (set_wday i t)) split_year
                   else if aeqb c "Y" then number ALT_E 0 9999 (fun i => DRet (set_year (i - TM_YEAR_BASE) t)) split_year
                   else if aeqb c "y" then
                     number (Z.lor ALT_E ALT_O) 0 99 (fun i =>
                       if split_year then dlift (cbind (int_op (Z.quot (tm_year t) 100 * 100 + i)) (fun y => Val (set_year y t)))
                       else if i <=? 68 then DRet (set_year (i + 2000 - TM_YEAR_BASE) t)
                       else DRet (set_year (i + 1900 - TM_YEAR_BASE) t)) true
                   else if aeqb c "n" || aeqb c "t" then
                     if legal_alt alt 0 then strptime fuel (skip_space bp) fmt t split_year else DRet None
                   else DRet None
               end
      end
  end.

Definition ARG_ERR_BADDATE : Z := 6.
(** arg_date_scanfn, lines 2010-2034: [tmval] is an array of [maxcount] times, [count] the ones in use. *)
Definition date_scan (fuel : nat) (format : str) (maxcount count : Z) (tmval : list tm) (argval : option str) : dres (Z * Z * list tm) :=
  if count =? maxcount then DRet (ARG_ERR_MAXCOUNT, count, tmval)
  else match argval with
       | None => DRet (0, count + 1, tmval)
       | Some v =>
           match (if count <? 0 then None else nth_error tmval (Z.to_nat count)) with
           | None => DUB
           | Some t =>
               dbind (strptime fuel v format t false) (fun r =>
               match r with
               | Some ([], t) => DRet (0, count + 1, firstn (Z.to_nat count) tmval ++ [t] ++ skipn (S (Z.to_nat count)) tmval)
               | _ => DRet (ARG_ERR_BADDATE, count, tmval)
               end)
           end
       end.
