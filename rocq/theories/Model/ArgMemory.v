(** src/argtable3.c and src/main.c again, now with the memory of the option
    parser: the blocks of the table entries, the copy of argv, and the two option
    lists for getopt.  An access outside an array, or a free of something that
    is not allocated, is [MUB].  malloc may fail at any time; then the process
    ends ([MPanic]).  (Model/Argtable.v has the values.) *)
From Coq Require Import ZArith Bool List Ascii String Arith.
From Verif.Base Require Import CInt CStr CMem.
From Verif.Model Require Import Config ArgInt Permute Getopt Argtable Main.
Import ListNotations.
Open Scope list_scope.
Open Scope nat_scope.

Inductive mres (A : Type) : Type := MVal (a : A) | MUB | MPanic.
Arguments MVal {A} a.
Arguments MUB {A}.
Arguments MPanic {A}.
Definition mbind {A B} (m : mres A) (f : A -> mres B) : mres B :=
  match m with MVal a => f a | MUB => MUB | MPanic => MPanic end.
Definition lift {A} (m : cres A) : mres A := match m with Val a => MVal a | UB => MUB end.

(** The allocated blocks, by number; the number of calls of malloc so far. *)
Record heap : Type := mkHeap { h_live : list nat; h_calls : nat }.

(** src/argtable3.c:356-362, with the default panic function (322-348), which
    ends the process.  [ok n]: the n-th malloc succeeds. *)
Definition xmalloc (ok : nat -> bool) (h : heap) : mres (nat * heap) :=
  let n := h_calls h in
  if ok n then MVal (n, mkHeap (n :: h_live h) (S n)) else MPanic.

(** src/argtable3.c:383-385 *)
Definition xfree (i : nat) (h : heap) : mres heap :=
  if existsb (Nat.eqb i) (h_live h) then MVal (mkHeap (remove Nat.eq_dec i (h_live h)) (h_calls h)) else MUB.

(** [a[i] = x] *)
Definition put {A} (a : list A) (i : nat) (x : A) : cres (list A) :=
  if i <? List.length a then Val (firstn i a ++ x :: skipn (S i) a) else UB.

(** An element of [ival] or [sval]. *)
Inductive slot : Type := SUninit | SInt (z : Z) | SStr (s : str).

(** struct arg_lit, arg_int, arg_str with the array behind it (src/argtable3.h:115-136); [me_arr] is
    [ival] or [sval]. *)
Record ment : Type := mkMent {
  me_id : nat;
  me_kind : akind;
  me_short : option str;
  me_long : option str;
  me_min : nat;
  me_max : nat;
  me_arr : list slot;
  me_count : nat
}.
Definition with_arr (e : ment) (a : list slot) (n : nat) : ment :=
  mkMent (me_id e) (me_kind e) (me_short e) (me_long e) (me_min e) (me_max e) a n.

(** src/argtable3.c:3405-3436 (arg_litn), 3284-3320 (arg_intn), 4609-4650 (arg_strn). *)
Definition new_entry (ok : nat -> bool) (e : entry) (h : heap) : mres (ment * heap) :=
  let maxcount := if e_max e <? e_min e then e_min e else e_max e in
  mbind (xmalloc ok h) (fun '(i, h) =>
  MVal (mkMent i (e_kind e) (e_short e) (e_long e) (e_min e) maxcount
          (match e_kind e with ALit => [] | AInt => repeat SUninit maxcount | AStr => repeat (SStr []) maxcount end) 0, h)).

(** struct arg_end: [error], [parent] and [argval] are one array of triples here. *)
Record mend : Type := mkMend { en_id : nat; en_max : nat; en_arr : list (option perror); en_count : nat }.

(** src/argtable3.c:2768-2803 *)
Definition new_end (ok : nat -> bool) (maxcount : nat) (h : heap) : mres (mend * heap) :=
  mbind (xmalloc ok h) (fun '(i, h) => MVal (mkMend i maxcount (repeat None maxcount) 0, h)).

(** src/argtable3.c:4990-5002: the index [maxcount - 1] is negative when maxcount is 0. *)
Definition register_m (d : mend) (e : perror) : cres mend :=
  if en_count d <? en_max d
  then cbind (put (en_arr d) (en_count d) (Some e)) (fun a => Val (mkMend (en_id d) (en_max d) a (S (en_count d))))
  else match en_max d with
       | 0 => UB
       | S i => cbind (put (en_arr d) i (Some (mkErr None ARG_ELIMIT None))) (fun a => Val (mkMend (en_id d) (en_max d) a (en_count d)))
       end.

(** The scan functions, src/argtable3.c:3363-3372 (lit), 3167-3236 (int), 4555-4572 (str). *)
Definition scanfn_m (e : ment) (argval : option str) : cres (Z * ment) :=
  match me_kind e with
  | ALit => if me_count e <? me_max e then Val (0%Z, with_arr e (me_arr e) (S (me_count e))) else Val (ARG_ERR_MAXCOUNT, e)
  | AInt =>
      if me_count e =? me_max e then Val (ARG_ERR_MAXCOUNT, e)
      else match argval with
           | None => Val (0%Z, with_arr e (me_arr e) (S (me_count e)))
           | Some s => cbind (scan_int s) (fun r =>
               match r with
               | Stored v => cbind (put (me_arr e) (me_count e) (SInt v)) (fun a => Val (0%Z, with_arr e a (S (me_count e))))
               | Failed code => Val (code, e)
               end)
           end
  | AStr =>
      if me_count e =? me_max e then Val (ARG_ERR_MAXCOUNT, e)
      else match argval with
           | None => Val (0%Z, with_arr e (me_arr e) (S (me_count e)))
           | Some s => cbind (put (me_arr e) (me_count e) (SStr s)) (fun a => Val (0%Z, with_arr e a (S (me_count e))))
           end
  end.

(** src/argtable3.c:3374-3378, 3238-3242, 4574-4579. *)
Definition checkfn_m (e : ment) : Z := if me_count e <? me_min e then ARG_ERR_MINCOUNT else 0%Z.

(** src/argtable3.c:4545-4553: the strings that were counted are "" again. *)
Fixpoint clear_strings (n : nat) (a : list slot) : cres (list slot) :=
  match n with
  | 0 => Val a
  | S n => cbind (clear_strings n a) (fun a => put a n (SStr []))
  end.
(** The reset functions, src/argtable3.c:3358-3361, 3106-3109, 4545-4553. *)
Definition resetfn_m (e : ment) : cres ment :=
  match me_kind e with
  | AStr => cbind (clear_strings (me_count e) (me_arr e)) (fun a => Val (with_arr e a 0))
  | _ => Val (with_arr e (me_arr e) 0)
  end.

(** *** The list of long options, src/argtable3.c:5042-5117.  The options and the
    text are parts of one block; here each is an array of its own, so that
    running from one into the other is [UB]. *)

(** Lines 5065-5068: [strchr(longopts + 1, ',')] reads behind the string if it is empty. *)
Fixpoint commas (s : str) : nat :=
  match s with [] => 0 | c :: r => (if aeqb c ","%char then 1 else 0) + commas r end.
Definition count_long (l : option str) : cres nat :=
  match l with
  | None => Val 0
  | Some [] => UB
  | Some (_ :: r) => Val (S (commas r))
  end.
(** Lines 5060-5069, for all entries but the terminator. *)
Fixpoint sizes_long (table : list ment) : cres (nat * nat) :=
  match table with
  | [] => Val (0, 0)
  | e :: table =>
      cbind (count_long (me_long e)) (fun n => cbind (sizes_long table) (fun '(no, len) =>
      Val (n + no, List.length (match me_long e with Some s => s | None => [] end) + 1 + len)))
  end.

(** struct option: the name as an offset into the stored text, [None] for NULL; has_arg; val. *)
Record mopt : Type := mkMopt { mo_name : option nat; mo_has_arg : nat; mo_val : nat }.
(** The options, the text, and the position in both ([option_index], [store]). *)
Record lstate : Type := mkLs { ls_opts : list (option mopt); ls_text : block; ls_index : nat; ls_off : nat }.

(** Lines 5091-5106: the name that began at [start] is complete. *)
Definition end_name (start has_arg tabindex : nat) (s : lstate) : cres lstate :=
  cbind (store (ls_text s) (ls_off s) [Some NUL]) (fun text =>
  cbind (put (ls_opts s) (ls_index s) (Some (mkMopt (Some start) has_arg tabindex))) (fun opts =>
  Val (mkLs opts text (S (ls_index s)) (S (ls_off s))))).
(** Lines 5085-5107: [longopts] is the text that remains; [start] is set inside a name. *)
Fixpoint copy_long (longopts : str) (start : option nat) (has_arg tabindex : nat) (s : lstate) : cres lstate :=
  let at_ := match start with Some i => i | None => ls_off s end in
  match longopts with
  | [] => match start with None => Val s | Some i => end_name i has_arg tabindex s end
  | c :: r =>
      if aeqb c ","%char then cbind (end_name at_ has_arg tabindex s) (copy_long r None has_arg tabindex)
      else cbind (store (ls_text s) (ls_off s) [Some c]) (fun text =>
           copy_long r (Some at_) has_arg tabindex (mkLs (ls_opts s) text (ls_index s) (S (ls_off s))))
  end.
Definition has_value_m (e : ment) : bool := match me_kind e with ALit => false | _ => true end.
(** Lines 5082-5108. *)
Fixpoint fill_long (tabindex : nat) (table : list ment) (s : lstate) : cres lstate :=
  match table with
  | [] => Val s
  | e :: table =>
      cbind (copy_long (match me_long e with Some l => l | None => [] end) None (if has_value_m e then 1 else 0) tabindex s)
            (fill_long (S tabindex) table)
  end.
(** The sizes start at 1 and, for the terminator, 1 (lines 5045, 5064). *)
Definition long_block (table : list ment) : cres lstate :=
  cbind (sizes_long table) (fun '(no, len) =>
  cbind (fill_long 0 table (mkLs (repeat None (no + 1)) (repeat None (len + 1)) 0 0)) (fun s =>
  cbind (put (ls_opts s) (ls_index s) (Some (mkMopt None 0 0))) (fun opts =>
  Val (mkLs opts (ls_text s) (ls_index s) (ls_off s))))).

(** What getopt reads: the options up to the one without a name. *)
Fixpoint read_long (opts : list (option mopt)) (text : block) : cres (list lopt) :=
  match opts with
  | Some o :: opts =>
      match mo_name o with
      | None => Val []
      | Some i => cbind (cstr (skipn i text)) (fun n => cbind (read_long opts text) (fun l =>
                  Val (mkLopt n (mo_has_arg o) (mo_val o) :: l)))
      end
  | _ => UB
  end.

(** *** The list of short options, src/argtable3.c:5119-5155. *)
Definition letters (e : ment) : str := match me_short e with Some s => s | None => [] end.
(** Lines 5126-5129. *)
Definition size_short (table : list ment) : nat := fold_right (fun e n => 3 * List.length (letters e) + n) 2 table.
(** [*res++ = c] *)
Definition push (c : ascii) (x : block * nat) : cres (block * nat) :=
  cbind (store (fst x) (snd x) [Some c]) (fun b => Val (b, S (snd x))).
(** Lines 5142-5148; no entry has ARG_HASOPTVALUE. *)
Fixpoint copy_short (s : str) (has : bool) (x : block * nat) : cres (block * nat) :=
  match s with
  | [] => Val x
  | c :: s => cbind (push c x) (fun x => cbind (if has then push ":"%char x else Val x) (copy_short s has))
  end.
Fixpoint fill_short (table : list ment) (x : block * nat) : cres (block * nat) :=
  match table with
  | [] => Val x
  | e :: table => cbind (copy_short (letters e) (has_value_m e) x) (fill_short table)
  end.
Definition short_block (table : list ment) : cres block :=
  cbind (push ":"%char (repeat None (size_short table), 0)) (fun x =>
  cbind (fill_short table x) (fun x => cbind (push NUL x) (fun x => Val (fst x)))).

(** *** Parsing *)

Record mstate : Type := mkMs { m_table : list ment; m_end : mend; m_get : gopt }.

(** src/argtable3.c:5008-5015. *)
Fixpoint find_short_m (i : nat) (table : list ment) (c : ascii) : option nat :=
  match table with
  | [] => None
  | e :: table =>
      match me_short e with
      | Some s => match strchr s c with Some _ => Some i | None => find_short_m (S i) table c end
      | None => find_short_m (S i) table c
      end
  end.

(** Calling the scan function of entry [i] and registering its error. *)
Definition scan_m (i : nat) (optarg : option str) (table : list ment) (d : mend) : cres (list ment * mend) :=
  match nth_error table i with
  | None => UB
  | Some e =>
      cbind (scanfn_m e optarg) (fun '(errorcode, e') =>
      cbind (put table i e') (fun table =>
      if (errorcode =? 0)%Z then Val (table, d)
      else cbind (register_m d (mkErr (Some i) errorcode optarg)) (fun d => Val (table, d))))
  end.

(** src/argtable3.c:5195-5256. *)
Definition tagged_step_m (r : gret) (p : mstate) : cres mstate :=
  let g := m_get p in
  let err (e : perror) := cbind (register_m (m_end p) e) (fun d => Val (mkMs (m_table p) d g)) in
  if (r_code r =? 0)%Z then
    match nth_error (m_table p) (r_flagval r) with
    | None => UB
    | Some e =>
        cbind (match r_optarg r with
               | Some [] => if has_value_m e
                            then cbind (prev_word g) (fun w => register_m (m_end p) (mkErr None ARG_EMISSARG w))
                            else Val (m_end p)
               | _ => Val (m_end p)
               end) (fun d =>
        cbind (scan_m (r_flagval r) (r_optarg r) (m_table p) d) (fun '(t, d) => Val (mkMs t d g)))
    end
  else if (r_code r =? BADCH)%Z then
    if (r_optopt r =? 0)%Z then cbind (prev_word g) (fun w => err (mkErr None ARG_ELONGOPT w))
    else err (mkErr None (r_optopt r) None)
  else if (r_code r =? BADARG)%Z then
    cbind (prev_word g) (fun w => err (mkErr None ARG_EMISSARG w))
  else
    match find_short_m 0 (m_table p) (ascii_of_N (Z.to_N (r_code r mod 256))) with
    | None => err (mkErr None (r_code r) None)
    | Some i => cbind (scan_m i (r_optarg r) (m_table p) (m_end p)) (fun '(t, d) => Val (mkMs t d g))
    end.

(** src/argtable3.c:5187-5257. *)
Fixpoint tagged_loop_m (fuel : nat) (posix : bool) (options : str) (los : list lopt) (p : mstate) : option (cres mstate) :=
  match fuel with
  | 0 => None
  | S fuel =>
      match getopt_long posix options los (m_get p) with
      | UB => Some UB
      | Val (r, g) =>
          if (r_code r =? DONE)%Z then Some (Val (mkMs (m_table p) (m_end p) g))
          else match tagged_step_m r (mkMs (m_table p) (m_end p) g) with
               | UB => Some UB
               | Val p => tagged_loop_m fuel posix options los p
               end
      end
  end.

(** Continue after a computation that may not finish. *)
Definition obind {A B} (m : option (mres A)) (f : A -> option (mres B)) : option (mres B) :=
  match m with
  | None => None
  | Some (MVal a) => f a
  | Some MUB => Some MUB
  | Some MPanic => Some MPanic
  end.

(** src/argtable3.c:5165-5261. *)
Definition tagged_m (ok : nat -> bool) (fuel : nat) (posix : bool) (argv : list str) (table : list ment) (d : mend) (h : heap)
  : option (mres (mstate * heap)) :=
  obind (Some (xmalloc ok h)) (fun '(li, h) =>
  obind (Some (lift (long_block table))) (fun ls =>
  obind (Some (xmalloc ok h)) (fun '(si, h) =>
  obind (Some (lift (short_block table))) (fun sb =>
  obind (Some (lift (read_long (ls_opts ls) (ls_text ls)))) (fun los =>
  obind (Some (lift (cstr sb))) (fun options =>
  obind (option_map lift (tagged_loop_m fuel posix options los (mkMs table d (mkG argv 0 [] None None false)))) (fun p =>
  obind (Some (xfree si h)) (fun h =>
  obind (Some (xfree li h)) (fun h => Some (MVal (p, h))))))))))).

(** src/argtable3.c:5294-5315. *)
Fixpoint untagged_entry_m (e : ment) (words : list str) : cres (ment * list str * option (Z * str)) :=
  match words with
  | [] => Val (e, [], None)
  | w :: words' =>
      cbind (scanfn_m e (Some w)) (fun '(errorcode, e') =>
      if (errorcode =? 0)%Z then untagged_entry_m e' words' else Val (e', words, Some (errorcode, w)))
  end.
(** src/argtable3.c:5270-5316. *)
Fixpoint untagged_loop_m (i : nat) (todo : list ment) (words : list str) (last : option (nat * Z * str))
  : cres (list ment * (unit + (list str * option (nat * Z * str)))) :=
  match todo with
  | [] => Val ([], inr (words, last))
  | e :: todo' =>
      match words with
      | [] => Val (todo, inl tt)
      | _ =>
          match me_long e, me_short e with
          | None, None =>
              cbind (untagged_entry_m e words) (fun '(e', words', err) =>
              let last := match err with Some (c, w) => Some (i, c, w) | None => None end in
              cbind (untagged_loop_m (S i) todo' words' last) (fun '(t, r) => Val (e' :: t, r)))
          | _, _ => cbind (untagged_loop_m (S i) todo' words last) (fun '(t, r) => Val (e :: t, r))
          end
      end
  end.
Fixpoint register_words (words : list str) (d : mend) : cres mend :=
  match words with
  | [] => Val d
  | w :: words => cbind (register_m d (mkErr None ARG_ENOMATCH (Some w))) (register_words words)
  end.
(** src/argtable3.c:5263-5332. *)
Definition untagged_m (p : mstate) : cres (list ment * mend) :=
  let words := skipn (g_optind (m_get p)) (g_argv (m_get p)) in
  cbind (untagged_loop_m 0 (m_table p) words None) (fun '(t, r) =>
  match r with
  | inl _ => Val (t, m_end p)
  | inr (words, Some (i, c, w)) =>
      cbind (register_m (m_end p) (mkErr (Some i) c (Some w))) (fun d =>
      cbind (register_words (tl words) d) (fun d => Val (t, d)))
  | inr (words, None) => cbind (register_words words (m_end p)) (fun d => Val (t, d))
  end).

(** src/argtable3.c:5334-5345. *)
Fixpoint check_m (i : nat) (table : list ment) (d : mend) : cres mend :=
  match table with
  | [] => Val d
  | e :: table =>
      cbind (if (checkfn_m e =? 0)%Z then Val d else register_m d (mkErr (Some i) (checkfn_m e) None))
            (check_m (S i) table)
  end.

(** src/argtable3.c:5347-5355. *)
Fixpoint reset_m (table : list ment) : cres (list ment) :=
  match table with
  | [] => Val []
  | e :: table => cbind (resetfn_m e) (fun e => cbind (reset_m table) (fun t => Val (e :: t)))
  end.

(** src/argtable3.c:5393-5396: argvcopy, an array of argc + 1 pointers. *)
Fixpoint copy_argv (i : nat) (argv : list str) (a : list (option (option str))) : cres (list (option (option str))) :=
  match argv with
  | [] => put a i (Some None)
  | w :: argv => cbind (put a i (Some (Some w))) (copy_argv (S i) argv)
  end.
(** The words in it. *)
Fixpoint read_argv (a : list (option (option str))) : cres (list str) :=
  match a with
  | Some (Some w) :: a => cbind (read_argv a) (fun l => Val (w :: l))
  | Some None :: _ => Val []
  | _ => UB
  end.

(** src/argtable3.c:5357-5410. *)
Definition parse_m (ok : nat -> bool) (fuel : nat) (posix : bool) (argv : list str) (table : list ment) (d : mend) (h : heap)
  : option (mres (list ment * mend * heap)) :=
  let d := mkMend (en_id d) (en_max d) (en_arr d) 0 in
  obind (Some (lift (reset_m table))) (fun table =>
  match argv with
  | [] => obind (Some (lift (check_m 0 table d))) (fun d => Some (MVal (table, d, h)))
  | _ =>
      obind (Some (xmalloc ok h)) (fun '(ai, h) =>
      obind (Some (lift (copy_argv 0 argv (repeat None (List.length argv + 1))))) (fun copy =>
      obind (Some (lift (read_argv copy))) (fun argv =>
      obind (tagged_m ok fuel posix argv table d h) (fun '(p, h) =>
      obind (Some (lift (untagged_m p))) (fun '(t, d) =>
      obind (Some (lift (match en_count d with 0 => check_m 0 t d | _ => Val d end))) (fun d =>
      obind (Some (xfree ai h)) (fun h => Some (MVal (t, d, h)))))))))
  end).

(** *** main *)

(** What main reads from an entry: the first [count] elements. *)
Definition slot_val (s : slot) : aval := match s with SUninit => VNone | SInt z => VInt z | SStr s => VStr s end.
Definition entry_of (e : ment) : entry :=
  mkEntry (me_kind e) (me_short e) (me_long e) (me_min e) (me_max e)
    (match me_kind e with ALit => repeat VNone (me_count e) | _ => map slot_val (firstn (me_count e) (me_arr e)) end).
(** arg_print_errors reads the first [count] errors; a null slot would be read uninitialised. *)
Fixpoint errors_of (n : nat) (a : list (option perror)) : cres (list perror) :=
  match n, a with
  | 0, _ => Val []
  | S n, Some e :: a => cbind (errors_of n a) (fun l => Val (e :: l))
  | _, _ => UB
  end.

(** src/main.c:14-39 *)
Fixpoint new_table (ok : nat -> bool) (t : list entry) (h : heap) : mres (list ment * heap) :=
  match t with
  | [] => MVal ([], h)
  | e :: t => mbind (new_entry ok e h) (fun '(e, h) => mbind (new_table ok t h) (fun '(t, h) => MVal (e :: t, h)))
  end.
(** src/argtable3.c:5990-6001 *)
Fixpoint free_table (ids : list nat) (h : heap) : mres heap :=
  match ids with
  | [] => MVal h
  | i :: ids => mbind (xfree i h) (free_table ids)
  end.

(** src/main.c:13-191 up to what is done with the values; the heap when main returns.  (What the printing
    functions allocate is in Model/Dstr.v.) *)
Definition main_m (ok : nat -> bool) (fuel : nat) (posix : bool) (argv : list str) : option (mres (action * heap)) :=
  obind (Some (new_table ok arg_table (mkHeap [] 0))) (fun '(t, h) =>
  obind (Some (new_end ok end_max h)) (fun '(d, h) =>
  obind (parse_m ok fuel posix argv t d h) (fun '(t, d, h) =>
  let v := map entry_of t in
  obind (Some (lift (if 0 <? count v I_help then Val Usage
                     else if 0 <? count v I_version then Val Version
                     else if 0 <? en_count d then cbind (errors_of (en_count d) (en_arr d)) (fun l => Val (Errors l))
                     else cbind (make_config v) (fun c => Val (Run c))))) (fun a =>
  obind (Some (free_table (map me_id t ++ [en_id d]) h)) (fun h => Some (MVal (a, h))))))).
