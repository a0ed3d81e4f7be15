(** src/argtable3.c:1366-1946: getopt_long as bundled with argtable3
    (ARG_REPLACE_GETOPT is 1, GNU_COMPATIBLE is defined). *)
From Coq Require Import ZArith Bool List Ascii String Arith.
From Verif.Base Require Import CInt CStr.
From Verif.Model Require Import Permute.
Import ListNotations.
Open Scope list_scope.
Open Scope nat_scope.

(** One element of the array built by alloc_longoptions (src/argtable3.c:5082-5108).
    [flag] always points to the same variable, so only [val] is kept. *)
Record lopt : Type := mkLopt { lo_name : str; lo_has_arg : nat; lo_val : nat }.

(** The static and global variables of getopt: argv (permuted in place; argv[argc]
    is NULL), optind, place, nonopt_start and nonopt_end (-1 is [None]), optreset.
    [place] is either "" or points into [argv[optind]]; it is the remaining text. *)
Record gopt : Type := mkG {
  g_argv : list str;
  g_optind : nat;
  g_place : str;
  g_nstart : option nat;
  g_nend : option nat;
  g_reset : bool
}.

(** What a call returns: the code, optarg, optopt (only read when the code is
    '?'), and the value stored through [flag] (only when the code is 0). *)
Record gret : Type := mkRet { r_code : Z; r_optarg : option str; r_optopt : Z; r_flagval : nat }.

Definition DONE  : Z := (-1)%Z.
Definition BADCH : Z := 63%Z.    (* '?' *)
(** [BADARG]: the option string starts with ':' (src/argtable3.c:5137). *)
Definition BADARG : Z := 58%Z.   (* ':' *)

(** A [char] as an [int]: signed. *)
Definition schar (c : ascii) : Z :=
  let n := Z.of_N (code c) in if (n <? 128)%Z then n else (n - 256)%Z.

(** strchr(s, '='): the text before it and, if found, the text after it. *)
Fixpoint split_equal (s : str) : str * option str :=
  match s with
  | [] => ([], None)
  | c :: r => if aeqb c "="%char then ([], Some r)
              else let (a, b) := split_equal r in (c :: a, b)
  end.

(** src/argtable3.c:1571-1598: the loop over the long options.  [m] is
    long_options[match]; result: match, exact_match, second_partial_match.
    [flags & FLAG_LONGONLY] is 0 and the flag pointers are equal. *)
Fixpoint find_long (name : str) (short_too : bool) (los : list lopt) (m : option lopt) (second : bool)
  : option lopt * bool * bool :=
  match los with
  | [] => (m, false, second)
  | o :: los =>
      if negb (prefixb name (lo_name o)) then find_long name short_too los m second
      else if List.length (lo_name o) =? List.length name then (Some o, true, second)
      else if short_too && (List.length name =? 1) then find_long name short_too los m second
      else match m with
           | None => find_long name short_too los (Some o) second
           | Some o' =>
               find_long name short_too los m
                 (second || negb (lo_has_arg o =? lo_has_arg o') || negb (lo_val o =? lo_val o'))
           end
  end.

(** nargv[i]: a word, NULL at argc, outside the array beyond. *)
Definition argv_at (argv : list str) (i : nat) : cres (option str) :=
  match nth_error argv i with
  | Some w => Val (Some w)
  | None => if i =? List.length argv then Val None else UB
  end.

(** src/argtable3.c:1530-1689.  The result is the return value and optind.
    Messages are not printed (opterr is 0). *)
Definition parse_long_options (los : list lopt) (argv : list str) (optind : nat) (place : str) (short_too : bool)
  : cres (gret * nat) :=
  let optind1 := S optind in
  let (name, has_equal) := split_equal place in
  let '(m, exact, second) := find_long name short_too los None false in
  if negb exact && second then Val (mkRet BADCH None 0 0, optind1)
  else
    match m with
    | None =>
        if short_too then Val (mkRet DONE None 0 0, optind)
        else Val (mkRet BADCH None 0 0, optind1)
    | Some o =>
        if (lo_has_arg o =? 0) && match has_equal with Some _ => true | None => false end
        then Val (mkRet BADCH None 0 0, optind1)
        else
          cbind (if (lo_has_arg o =? 1) || (lo_has_arg o =? 2) then
                   match has_equal with
                   | Some v => Val (Some v, optind1)
                   | None =>
                       if lo_has_arg o =? 1
                       then cbind (argv_at argv optind1) (fun a => Val (a, S optind1))
                       else Val (None, optind1)
                   end
                 else Val (None, optind1))
          (fun '(optarg, optind2) =>
            if (lo_has_arg o =? 1) && match optarg with None => true | Some _ => false end
            then Val (mkRet BADARG None 0 0, optind2 - 1)
            else Val (mkRet 0 optarg 0 (lo_val o), optind2))
    end.

(** src/argtable3.c:1737-1815: find the next word that is an option.  Either the
    call returns -1 ([inl]) or scanning goes on in [place] ([inr]).  [fuel] bounds
    the number of [goto start]; the caller gives the length of argv, and running
    out is [UB] (it never happens: Proofs/GetoptProofs.v). *)
Fixpoint find_option (fuel : nat) (permute : bool) (g : gopt) : cres (gopt + gopt) :=
  let optind := g_optind g in
  (* src/argtable3.c:1764-1793: the word at optind is not an option *)
  let nonoption :=
    if negb permute then Val (inl (mkG (g_argv g) optind [] (g_nstart g) (g_nend g) false))
    else
      match fuel with
      | 0 => UB
      | S fuel =>
          cbind (match g_nstart g, g_nend g with
                 | None, ne => Val (g_argv g, Some optind, ne)
                 | Some ns, Some ne =>
                     cbind (permute_args ns ne optind (g_argv g)) (fun argv =>
                     Val (argv, Some (optind - (ne - ns)), None))
                 | Some ns, None => Val (g_argv g, Some ns, None)
                 end) (fun '(argv, ns, ne) =>
          find_option fuel permute (mkG argv (S optind) [] ns ne false))
      end in
  if negb (g_reset g) && match g_place g with [] => false | _ => true end then Val (inr g)
  else
    match nth_error (g_argv g) optind with
    | None =>                                          (* optind >= nargc *)
        match g_nend g, g_nstart g with
        | Some ne, Some ns =>
            cbind (permute_args ns ne optind (g_argv g)) (fun argv =>
            Val (inl (mkG argv (optind - (ne - ns)) [] None None false)))
        | Some _, None => UB
        | None, Some ns => Val (inl (mkG (g_argv g) ns [] None None false))
        | None, None => Val (inl (mkG (g_argv g) optind [] None None false))
        end
    | Some (c :: ((c1 :: place2) as place1)) =>
        if aeqb c "-"%char then
          let nend := match g_nstart g, g_nend g with
                      | Some _, None => Some optind
                      | _, ne => ne
                      end in
          if aeqb c1 "-"%char && match place2 with [] => true | _ => false end then   (* -- *)
            match nend, g_nstart g with
            | Some ne, Some ns =>
                cbind (permute_args ns ne (S optind) (g_argv g)) (fun argv =>
                Val (inl (mkG argv (S optind - (ne - ns)) [] None None false)))
            | Some _, None => UB
            | None, _ => Val (inl (mkG (g_argv g) (S optind) [] None None false))
            end
          else Val (inr (mkG (g_argv g) optind place1 (g_nstart g) nend false))
        else nonoption
    | Some _ => nonoption
    end.

(** strchr(options, c): the text from the first [c] on. *)
Fixpoint strchr (s : str) (c : ascii) : option str :=
  match s with
  | [] => None
  | x :: r => if aeqb x c then Some s else strchr r c
  end.

(** src/argtable3.c:1847-1911: a short option.  [-W long] (lines 1870-1889) is
    not modelled: no option string of this program contains W. *)
Definition short_option (options : str) (g : gopt) : cres (gret * gopt) :=
  let with_ (optind : nat) (place : str) := mkG (g_argv g) optind place (g_nstart g) (g_nend g) false in
  match g_place g with
  | [] => UB                                           (* never: place is not empty here *)
  | optchar :: place =>
      let last := match place with [] => true | _ => false end in
      let dash := aeqb optchar "-"%char in
      match strchr options optchar with
      | Some (_ :: oli) =>
          if aeqb optchar ":"%char || (dash && negb last) then
            Val (mkRet BADCH None (schar optchar) 0, with_ (if last then S (g_optind g) else g_optind g) place)
          else
            match oli with
            | c :: oli' =>
                if negb (aeqb c ":"%char)
                then Val (mkRet (schar optchar) None 0 0, with_ (if last then S (g_optind g) else g_optind g) place)
                else if negb last
                then Val (mkRet (schar optchar) (Some place) 0 0, with_ (S (g_optind g)) [])
                else if match oli' with c' :: _ => negb (aeqb c' ":"%char) | [] => true end then
                  match nth_error (g_argv g) (S (g_optind g)) with
                  | None => Val (mkRet BADARG None (schar optchar) 0, with_ (S (g_optind g)) [])
                  | Some w => Val (mkRet (schar optchar) (Some w) 0 0, with_ (S (S (g_optind g))) [])
                  end
                else Val (mkRet (schar optchar) None 0 0, with_ (S (g_optind g)) [])
            | [] => Val (mkRet (schar optchar) None 0 0, with_ (if last then S (g_optind g) else g_optind g) place)
            end
      | _ =>
          if dash && last then Val (mkRet DONE None 0 0, with_ (g_optind g) [])
          else Val (mkRet BADCH None (schar optchar) 0, with_ (if last then S (g_optind g) else g_optind g) place)
      end
  end.

(** src/argtable3.c:1695-1912 with the flags of getopt_long (1939-1946):
    FLAG_PERMUTE, cleared if POSIXLY_CORRECT is set in the environment.  The
    option string starts with ':', so not with '-' or '+'.  [place != nargv[optind]]
    compares pointers into the same word: they differ iff the lengths differ. *)
Definition getopt_long (posixly_correct : bool) (options : str) (los : list lopt) (g : gopt) : cres (gret * gopt) :=
  let g := if g_optind g =? 0 then mkG (g_argv g) 1 (g_place g) (g_nstart g) (g_nend g) true else g in
  let g := if g_reset g then mkG (g_argv g) (g_optind g) (g_place g) None None true else g in
  cbind (find_option (List.length (g_argv g)) (negb posixly_correct) g) (fun x =>
  match x with
  | inl g => Val (mkRet DONE None 0 0, g)
  | inr g =>
      match nth_error (g_argv g) (g_optind g) with
      | None => UB
      | Some w =>
          if negb (List.length (g_place g) =? List.length w)
             && match g_place g with c :: _ => aeqb c "-"%char | [] => false end
          then
            match tl (g_place g) with
            | [] => Val (mkRet BADARG None 0 0, mkG (g_argv g) (g_optind g) [] (g_nstart g) (g_nend g) false)
            | place =>
                cbind (parse_long_options los (g_argv g) (g_optind g) place false) (fun '(r, optind) =>
                Val (r, mkG (g_argv g) optind [] (g_nstart g) (g_nend g) false))
            end
          else short_option options g
      end
  end).
