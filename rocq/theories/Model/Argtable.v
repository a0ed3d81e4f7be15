(** src/argtable3.c: the option table and arg_parse. *)
From Coq Require Import ZArith Bool List Ascii String Arith.
From Verif.Base Require Import CInt CStr.
From Verif.Model Require Import ArgInt Permute Getopt.
Import ListNotations.
Open Scope list_scope.
Open Scope nat_scope.

(** Error codes of arg_end (src/argtable3.h:159). *)
Definition ARG_ELIMIT   : Z := 1%Z.
Definition ARG_EMALLOC  : Z := 2%Z.
Definition ARG_ENOMATCH : Z := 3%Z.
Definition ARG_ELONGOPT : Z := 4%Z.
Definition ARG_EMISSARG : Z := 5%Z.

(** struct arg_lit, arg_int, arg_str (src/argtable3.h:115-136). *)
Inductive akind : Type := ALit | AInt | AStr.

(** A used element of [ival]/[sval]: counted without a value, or a value. *)
Inductive aval : Type := VNone | VInt (z : Z) | VStr (s : str).

(** A table entry: its header and the values scanned so far; [count] is their
    number.  [e_short] and [e_long] are NULL when [None]. *)
Record entry : Type := mkEntry {
  e_kind : akind;
  e_short : option str;
  e_long : option str;
  e_min : nat;
  e_max : nat;
  e_vals : list aval
}.
Definition e_count (e : entry) : nat := List.length (e_vals e).
Definition add_val (e : entry) (v : aval) : entry :=
  mkEntry (e_kind e) (e_short e) (e_long e) (e_min e) (e_max e) (e_vals e ++ [v]).

(** [hdr.flag & ARG_HASVALUE]: set by arg_intn and arg_strn, not by arg_litn
    (src/argtable3.c:3298, 4627, 3418). *)
Definition has_value (e : entry) : bool := match e_kind e with ALit => false | _ => true end.

(** The scan functions, src/argtable3.c:3363-3372 (lit), 3167-3236 (int),
    4555-4572 (str): error code and new entry. *)
Definition scanfn (e : entry) (argval : option str) : cres (Z * entry) :=
  match e_kind e with
  | ALit => if e_count e <? e_max e then Val (0%Z, add_val e VNone) else Val (ARG_ERR_MAXCOUNT, e)
  | AInt =>
      if e_count e =? e_max e then Val (ARG_ERR_MAXCOUNT, e)
      else match argval with
           | None => Val (0%Z, add_val e VNone)
           | Some s => cbind (scan_int s) (fun r =>
               match r with
               | Stored v => Val (0%Z, add_val e (VInt v))
               | Failed code => Val (code, e)
               end)
           end
  | AStr =>
      if e_count e =? e_max e then Val (ARG_ERR_MAXCOUNT, e)
      else match argval with
           | None => Val (0%Z, add_val e VNone)
           | Some s => Val (0%Z, add_val e (VStr s))
           end
  end.

(** The check functions, src/argtable3.c:3374-3378, 3238-3242, 4574-4579. *)
Definition checkfn (e : entry) : Z := if e_count e <? e_min e then ARG_ERR_MINCOUNT else 0%Z.

(** One error in arg_end: the entry it belongs to ([None] is the end itself),
    code and argval.  [end_max] is its maxcount. *)
Record perror : Type := mkErr { er_parent : option nat; er_code : Z; er_argval : option str }.

(** src/argtable3.c:4990-5002. *)
Definition register_error (end_max : nat) (errs : list perror) (e : perror) : list perror :=
  if List.length errs <? end_max then errs ++ [e]
  else upd (end_max - 1) (mkErr None ARG_ELIMIT None) errs.

(** src/argtable3.c:5082-5108: names separated by commas. *)
Fixpoint split_commas (s : str) : list str :=
  match s with
  | [] => []
  | c :: r =>
      if aeqb c ","%char then [] :: split_commas r
      else match r with
           | c' :: r' =>
               if aeqb c' ","%char then [c] :: split_commas r'
               else match split_commas r with n :: ns => (c :: n) :: ns | [] => [[c]] end
           | [] => [[c]]
           end
  end.

(** src/argtable3.c:5042-5117 (the size computation and the copying are in
    Model/ArgMemory.v).  has_arg is 1 or 0: no entry has ARG_HASOPTVALUE. *)
Fixpoint alloc_longoptions (tabindex : nat) (table : list entry) : list lopt :=
  match table with
  | [] => []
  | e :: table =>
      map (fun n => mkLopt n (if has_value e then 1 else 0) tabindex)
          (match e_long e with Some s => split_commas s | None => [] end)
      ++ alloc_longoptions (S tabindex) table
  end.

(** src/argtable3.c:5119-5155. *)
Definition alloc_shortoptions (table : list entry) : str :=
  ":"%char :: flat_map (fun e =>
    flat_map (fun c => if has_value e then [c; ":"%char] else [c])
             (match e_short e with Some s => s | None => [] end)) table.

(** src/argtable3.c:5008-5015. *)
Fixpoint find_shortoption (i : nat) (table : list entry) (c : ascii) : option nat :=
  match table with
  | [] => None
  | e :: table =>
      match e_short e with
      | Some s => match strchr s c with Some _ => Some i | None => find_shortoption (S i) table c end
      | None => find_shortoption (S i) table c
      end
  end.

Fixpoint set_entry (i : nat) (e : entry) (table : list entry) : list entry :=
  match table, i with
  | [], _ => []
  | _ :: r, 0 => e :: r
  | x :: r, S i => x :: set_entry i e r
  end.

(** The table, the errors in arg_end, and getopt's state. *)
Record pstate : Type := mkP { p_table : list entry; p_errs : list perror; p_get : gopt }.

(** argv[optind - 1] *)
Definition prev_word (g : gopt) : cres (option str) :=
  match g_optind g with 0 => UB | S i => argv_at (g_argv g) i end.

(** Calling the scan function of entry [i] and registering its error. *)
Definition scan_entry (end_max : nat) (i : nat) (optarg : option str) (table : list entry) (errs : list perror)
  : cres (list entry * list perror) :=
  match nth_error table i with
  | None => UB
  | Some e =>
      cbind (scanfn e optarg) (fun '(errorcode, e') =>
      Val (set_entry i e' table,
           if (errorcode =? 0)%Z then errs
           else register_error end_max errs (mkErr (Some i) errorcode optarg)))
  end.

(** src/argtable3.c:5195-5256: the body of the loop for one value of [copt]. *)
Definition tagged_step (end_max : nat) (r : gret) (p : pstate) : cres pstate :=
  let g := p_get p in
  let err (e : perror) := Val (mkP (p_table p) (register_error end_max (p_errs p) e) g) in
  if (r_code r =? 0)%Z then
    match nth_error (p_table p) (r_flagval r) with
    | None => UB
    | Some e =>
        cbind (match r_optarg r with
               | Some [] => if has_value e
                            then cbind (prev_word g) (fun w => Val (register_error end_max (p_errs p) (mkErr None ARG_EMISSARG w)))
                            else Val (p_errs p)
               | _ => Val (p_errs p)
               end) (fun errs =>
        cbind (scan_entry end_max (r_flagval r) (r_optarg r) (p_table p) errs) (fun '(t, errs) =>
        Val (mkP t errs g)))
    end
  else if (r_code r =? BADCH)%Z then
    if (r_optopt r =? 0)%Z then cbind (prev_word g) (fun w => err (mkErr None ARG_ELONGOPT w))
    else err (mkErr None (r_optopt r) None)
  else if (r_code r =? BADARG)%Z then
    cbind (prev_word g) (fun w => err (mkErr None ARG_EMISSARG w))
  else
    match find_shortoption 0 (p_table p) (ascii_of_N (Z.to_N (r_code r mod 256))) with
    | None => err (mkErr None (r_code r) None)
    | Some i =>
        cbind (scan_entry end_max i (r_optarg r) (p_table p) (p_errs p)) (fun '(t, errs) =>
        Val (mkP t errs g))
    end.

(** src/argtable3.c:5187-5257: the loop over getopt_long.  [None]: not finished
    within [fuel] iterations. *)
Fixpoint tagged_loop (fuel : nat) (posix : bool) (options : str) (los : list lopt) (end_max : nat) (p : pstate)
  : option (cres pstate) :=
  match fuel with
  | 0 => None
  | S fuel =>
      match getopt_long posix options los (p_get p) with
      | UB => Some UB
      | Val (r, g) =>
          if (r_code r =? DONE)%Z then Some (Val (mkP (p_table p) (p_errs p) g))
          else match tagged_step end_max r (mkP (p_table p) (p_errs p) g) with
               | UB => Some UB
               | Val p => tagged_loop fuel posix options los end_max p
               end
      end
  end.

(** src/argtable3.c:5165-5261. *)
Definition arg_parse_tagged (fuel : nat) (posix : bool) (end_max : nat) (argv : list str)
                            (table : list entry) (errs : list perror) : option (cres pstate) :=
  tagged_loop fuel posix (alloc_shortoptions table) (alloc_longoptions 0 table) end_max
    (mkP table errs (mkG argv 0 [] None None false)).

(** src/argtable3.c:5294-5315: one untagged entry takes words while its scan
    succeeds; result: entry, remaining words, last error. *)
Fixpoint untagged_entry (e : entry) (words : list str) : cres (entry * list str * option (Z * str)) :=
  match words with
  | [] => Val (e, [], None)
  | w :: words' =>
      cbind (scanfn e (Some w)) (fun '(errorcode, e') =>
      if (errorcode =? 0)%Z then untagged_entry e' words' else Val (e', words, Some (errorcode, w)))
  end.

(** src/argtable3.c:5270-5316: the loop over the table; [words] is argv[optind..].
    [last] is the tentative error with its entry.  [inl]: the words ran out. *)
Fixpoint untagged_loop (i : nat) (todo : list entry) (words : list str) (last : option (nat * Z * str))
  : cres (list entry * (unit + (list str * option (nat * Z * str)))) :=
  match todo with
  | [] => Val ([], inr (words, last))
  | e :: todo' =>
      match words with
      | [] => Val (todo, inl tt)
      | _ =>
          match e_long e, e_short e with
          | None, None =>
              cbind (untagged_entry e words) (fun '(e', words', err) =>
              let last := match err with Some (c, w) => Some (i, c, w) | None => None end in
              cbind (untagged_loop (S i) todo' words' last) (fun '(t, r) => Val (e' :: t, r)))
          | _, _ => cbind (untagged_loop (S i) todo' words last) (fun '(t, r) => Val (e :: t, r))
          end
      end
  end.

(** src/argtable3.c:5263-5332. *)
Definition arg_parse_untagged (end_max : nat) (p : pstate) : cres (list entry * list perror) :=
  let words := skipn (g_optind (p_get p)) (g_argv (p_get p)) in
  cbind (untagged_loop 0 (p_table p) words None) (fun '(t, r) =>
  match r with
  | inl _ => Val (t, p_errs p)
  | inr (words, last) =>
      let '(errs, words) :=
        match last with
        | Some (i, c, w) => (register_error end_max (p_errs p) (mkErr (Some i) c (Some w)), tl words)
        | None => (p_errs p, words)
        end in
      Val (t, fold_left (fun errs w => register_error end_max errs (mkErr None ARG_ENOMATCH (Some w))) words errs)
  end).

(** src/argtable3.c:5334-5345 (arg_end has no check function). *)
Fixpoint arg_parse_check (end_max i : nat) (table : list entry) (errs : list perror) : list perror :=
  match table with
  | [] => errs
  | e :: table =>
      arg_parse_check end_max (S i) table
        (if (checkfn e =? 0)%Z then errs else register_error end_max errs (mkErr (Some i) (checkfn e) None))
  end.

(** src/argtable3.c:5347-5355: the counts are 0 again. *)
Definition arg_reset (table : list entry) : list entry :=
  map (fun e => mkEntry (e_kind e) (e_short e) (e_long e) (e_min e) (e_max e) []) table.

(** src/argtable3.c:5357-5410.  The result is the table and the errors; their
    number is the return value.  [None] as in [tagged_loop]. *)
Definition arg_parse (fuel : nat) (posix : bool) (end_max : nat) (argv : list str) (table : list entry)
  : option (cres (list entry * list perror)) :=
  let table := arg_reset table in
  match argv with
  | [] => Some (Val (table, arg_parse_check end_max 0 table []))
  | _ =>
      match arg_parse_tagged fuel posix end_max argv table [] with
      | None => None
      | Some UB => Some UB
      | Some (Val p) =>
          Some (cbind (arg_parse_untagged end_max p) (fun '(t, errs) =>
                Val (t, match errs with [] => arg_parse_check end_max 0 t [] | _ => errs end)))
      end
  end.
