(** src/argtable3.c:1225-1964: getopt, getopt_long and getopt_long_only for any caller: any option string, any array
    of long options (or none), any flags, with the messages.  ARG_REPLACE_GETOPT is 1 and GNU_COMPATIBLE is defined.
    Model/Getopt.v is the special case that arg_parse uses (Proofs/GetoptFullProofs.v). *)
From Coq Require Import ZArith Bool List Ascii String Arith.
From Verif.Base Require Import CInt CStr.
From Verif.Model Require Import Permute Getopt.
Import ListNotations.
Open Scope list_scope.
Open Scope nat_scope.

(** struct option, src/argtable3.c:1262-1275.  [l_flag]: the address, [None] is NULL.  The array ends before the
    element without a name. *)
Record long : Type := mkLong { l_name : str; l_has_arg : Z; l_flag : option nat; l_val : Z }.

(** What a call does: the value returned; optarg; optopt ([None]: not assigned); *idx and *flag ([None]: not
    assigned); the text given to warnx ([None]: it is not called). *)
Record out : Type := mkOut {
  r_value : Z;
  r_arg : option str;
  r_opt : option Z;
  r_idx : option nat;
  r_store : option (nat * Z);
  r_warn : option str
}.

(** src/argtable3.c:1352-1354 *)
Definition INORDER : Z := 1%Z.
(** src/argtable3.c:1353: BADARG looks at the option string (behind '+' or '-'). *)
Definition colon_first (options : str) : bool := match options with c :: _ => aeqb c ":"%char | [] => false end.
Definition badarg (options : str) : Z := if colon_first options then 58%Z else BADCH.
(** src/argtable3.c:1345: PRINT_ERROR. *)
Definition print_error (opterr : bool) (options : str) (text : str) : option str :=
  if opterr && negb (colon_first options) then Some text else None.

(** src/argtable3.c:1377-1388: the messages with their arguments. *)
Definition recargchar (c : ascii) : str := lit "option requires an argument -- " ++ [c].
Definition illoptchar (c : ascii) : str := lit "illegal option -- " ++ [c].
Definition gnuoptchar (c : ascii) : str := lit "invalid option -- " ++ [c].
Definition recargstring (dash s : str) : str := lit "option `" ++ dash ++ s ++ lit "' requires an argument".
Definition ambig (dash a : str) : str := lit "option `" ++ dash ++ a ++ lit "' is ambiguous".
Definition noarg (dash a : str) : str := lit "option `" ++ dash ++ a ++ lit "' doesn't allow an argument".
Definition illoptstring (dash s : str) : str := lit "unrecognized option `" ++ dash ++ s ++ lit "'".

(** src/argtable3.c:1593-1596: the flag pointers. *)
Definition same_flag (a b : option nat) : bool :=
  match a, b with Some x, Some y => x =? y | None, None => true | _, _ => false end.

(** src/argtable3.c:1571-1598: [i] is the index of the first of [los], [m] is match; the result is match,
    exact_match and second_partial_match.  strncmp with the length of [name] (which has no NUL) is
    "is a prefix of". *)
Fixpoint find_name (longonly short_too : bool) (name : str) (i : nat) (los : list long) (m : option (nat * long)) (second : bool)
  : option (nat * long) * bool * bool :=
  match los with
  | [] => (m, false, second)
  | o :: los =>
      if negb (prefixb name (l_name o)) then find_name longonly short_too name (S i) los m second
      else if List.length (l_name o) =? List.length name then (Some (i, o), true, second)
      else if short_too && (List.length name =? 1) then find_name longonly short_too name (S i) los m second
      else match m with
           | None => find_name longonly short_too name (S i) los (Some (i, o)) second
           | Some (_, o') =>
               find_name longonly short_too name (S i) los m
                 (second || longonly || negb (l_has_arg o =? l_has_arg o')%Z || negb (same_flag (l_flag o) (l_flag o')) ||
                  negb (l_val o =? l_val o')%Z)
           end
  end.

(** src/argtable3.c:1530-1689.  [dash] is what current_dash points to.  The result is the outcome and optind; the
    value DONE says that the option is not a long one (lines 1668-1671).  (So does an option whose [val] is -1 and
    whose [flag] is NULL: what was assigned before is then not kept here.) *)
Definition parse_long (opterr longonly : bool) (options : str) (los : list long) (dash : str) (short_too : bool)
    (argv : list str) (optind : nat) (place : str) : cres (out * nat) :=
  let optind1 := S optind in
  let (name, has_equal) := split_equal place in
  let '(m, exact, second) := find_name longonly short_too name 0 los None false in
  let optopt o := match l_flag o with None => l_val o | Some _ => 0%Z end in
  if negb exact && second
  then Val (mkOut BADCH None (Some 0%Z) None None (print_error opterr options (ambig dash name)), optind1)
  else
    match m with
    | None =>
        if short_too then Val (mkOut DONE None None None None None, optind)
        else Val (mkOut BADCH None (Some 0%Z) None None (print_error opterr options (illoptstring dash place)), optind1)
    | Some (i, o) =>
        if (l_has_arg o =? 0)%Z && match has_equal with Some _ => true | None => false end
        then Val (mkOut BADCH None (Some (optopt o)) None None (print_error opterr options (noarg dash name)), optind1)
        else
          cbind (if (l_has_arg o =? 1)%Z || (l_has_arg o =? 2)%Z then
                   match has_equal with
                   | Some v => Val (Some v, optind1)
                   | None =>
                       if (l_has_arg o =? 1)%Z
                       then cbind (argv_at argv optind1) (fun a => Val (a, S optind1))
                       else Val (None, optind1)
                   end
                 else Val (None, optind1))
          (fun '(optarg, optind2) =>
            if (l_has_arg o =? 1)%Z && match optarg with None => true | Some _ => false end
            then Val (mkOut (badarg options) None (Some (optopt o)) None None
                        (print_error opterr options (recargstring dash place)), optind2 - 1)
            else
              match l_flag o with
              | Some f => Val (mkOut 0 optarg None (Some i) (Some (f, l_val o)) None, optind2)
              | None => Val (mkOut (l_val o) optarg None (Some i) None None, optind2)
              end)
    end.

(** What the search for the next option finds: nothing (-1 is returned), a word that is no option but is to be
    returned, or an option. *)
Inductive found : Type := FEnd (g : gopt) | FWord (w : str) (g : gopt) | FOption (g : gopt).

(** src/argtable3.c:1737-1815.  [fuel] bounds the number of [goto start] as in Model/Getopt.v. *)
Fixpoint find_any (fuel : nat) (allargs permute : bool) (g : gopt) : cres found :=
  let optind := g_optind g in
  let nonoption (w : str) :=
    if allargs then Val (FWord w (mkG (g_argv g) (S optind) [] (g_nstart g) (g_nend g) false))
    else if negb permute then Val (FEnd (mkG (g_argv g) optind [] (g_nstart g) (g_nend g) false))
    else
      match fuel with
      | 0 => UB
      | S fuel =>
          cbind (match g_nstart g, g_nend g with
                 | None, ne => Val (g_argv g, Some optind, ne)
                 | Some ns, Some ne =>
                     cbind (permute_args ns ne optind (g_argv g)) (fun argv =>
                     Val (argv, Some (optind - (ne - ns)), None))
                 | Some ns, None => Val (g_argv g, Some ns, None)
                 end) (fun '(argv, ns, ne) =>
          find_any fuel allargs permute (mkG argv (S optind) [] ns ne false))
      end in
  if negb (g_reset g) && match g_place g with [] => false | _ => true end then Val (FOption g)
  else
    match nth_error (g_argv g) optind with
    | None =>                                          (* optind >= nargc *)
        match g_nend g, g_nstart g with
        | Some ne, Some ns =>
            cbind (permute_args ns ne optind (g_argv g)) (fun argv =>
            Val (FEnd (mkG argv (optind - (ne - ns)) [] None None false)))
        | Some _, None => UB
        | None, Some ns => Val (FEnd (mkG (g_argv g) ns [] None None false))
        | None, None => Val (FEnd (mkG (g_argv g) optind [] None None false))
        end
    | Some ((c :: ((c1 :: place2) as place1)) as w) =>
        if aeqb c "-"%char then
          let nend := match g_nstart g, g_nend g with
                      | Some _, None => Some optind
                      | _, ne => ne
                      end in
          if aeqb c1 "-"%char && match place2 with [] => true | _ => false end then   (* -- *)
            match nend, g_nstart g with
            | Some ne, Some ns =>
                cbind (permute_args ns ne (S optind) (g_argv g)) (fun argv =>
                Val (FEnd (mkG argv (S optind - (ne - ns)) [] None None false)))
            | Some _, None => UB
            | None, _ => Val (FEnd (mkG (g_argv g) (S optind) [] None None false))
            end
          else Val (FOption (mkG (g_argv g) optind place1 (g_nstart g) nend false))
        else nonoption w
    | Some w => nonoption w
    end.

(** src/argtable3.c:1847-1911: a letter.  [los]: long_options, [None] is NULL. *)
Definition parse_letter (opterr posixly_correct longonly : bool) (options : str) (los : option (list long)) (g : gopt)
  : cres (out * gopt) :=
  let with_ (optind : nat) (place : str) := mkG (g_argv g) optind place (g_nstart g) (g_nend g) false in
  match g_place g with
  | [] => UB                                           (* never: place is not empty here *)
  | optchar :: place =>
      let last := match place with [] => true | _ => false end in
      let dash := aeqb optchar "-"%char in
      let here := with_ (if last then S (g_optind g) else g_optind g) place in
      let unknown :=                                   (* 1850-1869 *)
        if dash && last then Val (mkOut DONE None None None None None, with_ (g_optind g) [])
        else Val (mkOut BADCH None (Some (schar optchar)) None None
                    (print_error opterr options (if posixly_correct then illoptchar optchar else gnuoptchar optchar)), here) in
      let lacks := Val (mkOut (badarg options) None (Some (schar optchar)) None None
                          (print_error opterr options (recargchar optchar)), with_ (S (g_optind g)) []) in
      if aeqb optchar ":"%char || (dash && negb last) then unknown
      else
        match strchr options optchar with
        | Some (_ :: oli) =>
            match los, aeqb optchar "W"%char && match oli with c :: _ => aeqb c ";"%char | [] => false end with
            | Some los, true =>                        (* 1870-1889 *)
                let long_at optind place :=
                  cbind (parse_long opterr longonly options los (lit "-W ") false (g_argv g) optind place) (fun '(r, optind) =>
                  Val (r, with_ optind [])) in
                if negb last then long_at (g_optind g) place
                else match nth_error (g_argv g) (S (g_optind g)) with
                     | None => lacks
                     | Some w => long_at (S (g_optind g)) w
                     end
            | _, _ =>
                let flag := Val (mkOut (schar optchar) None None None None None, here) in
                match oli with
                | c :: oli' =>
                    if negb (aeqb c ":"%char) then flag
                    else if negb last
                    then Val (mkOut (schar optchar) (Some place) None None None None, with_ (S (g_optind g)) [])
                    else if match oli' with c' :: _ => negb (aeqb c' ":"%char) | [] => true end then
                      match nth_error (g_argv g) (S (g_optind g)) with
                      | None => lacks
                      | Some w => Val (mkOut (schar optchar) (Some w) None None None None, with_ (S (S (g_optind g))) [])
                      end
                    else Val (mkOut (schar optchar) None None None None None, with_ (S (g_optind g)) [])
                | [] => flag
                end
            end
        | _ => unknown
        end
  end.

(** src/argtable3.c:1816-1911: the option at [place].  [place != nargv[optind]] compares pointers into the same
    word: they differ iff the lengths differ. *)
Definition at_option (opterr posixly_correct longonly : bool) (options : str) (los : option (list long)) (g : gopt)
  : cres (out * gopt) :=
  let letter := parse_letter opterr posixly_correct longonly options los in
  match nth_error (g_argv g) (g_optind g) with
  | None => UB
  | Some w =>
      match los, g_place g with
      | Some los', c :: rest =>
          let long_at dash short_too place :=
            cbind (parse_long opterr longonly options los' dash short_too (g_argv g) (g_optind g) place) (fun '(r, optind) =>
            if (r_value r =? DONE)%Z                     (* optchar != -1 fails: go on with the letter *)
            then letter (mkG (g_argv g) optind place (g_nstart g) (g_nend g) false)
            else Val (r, mkG (g_argv g) optind [] (g_nstart g) (g_nend g) false)) in
          if List.length (c :: rest) =? List.length w then letter g
          else if aeqb c "-"%char then
            match rest with
            | [] => Val (mkOut (badarg options) None None None None None, mkG (g_argv g) (g_optind g) [] (g_nstart g) (g_nend g) false)
            | _ => long_at (lit "--") false rest
            end
          else if longonly
          then long_at (lit "-") (negb (aeqb c ":"%char) && match strchr options c with Some _ => true | None => false end) (c :: rest)
          else letter g
      | _, _ => letter g
      end
  end.

(** src/argtable3.c:1695-1912: getopt_internal.  [permute], [longonly]: FLAG_PERMUTE and FLAG_LONGONLY;
    [posixly_correct]: whether POSIXLY_CORRECT is in the environment (it is looked up once).  The option string is
    not NULL (lines 1703-1704). *)
Definition getopt_internal (opterr posixly_correct permute longonly : bool) (options : str) (los : option (list long)) (g : gopt)
  : cres (out * gopt) :=
  let g := if g_optind g =? 0 then mkG (g_argv g) 1 (g_place g) (g_nstart g) (g_nend g) true else g in
  let first c := match options with x :: _ => aeqb x c | [] => false end in
  let allargs := first "-"%char in
  let permute := if negb allargs && (posixly_correct || first "+"%char) then false else permute in
  let options := if first "+"%char || first "-"%char then tl options else options in
  let g := if g_reset g then mkG (g_argv g) (g_optind g) (g_place g) None None true else g in
  cbind (find_any (List.length (g_argv g)) allargs permute g) (fun x =>
  match x with
  | FEnd g => Val (mkOut DONE None None None None None, g)
  | FWord w g => Val (mkOut INORDER (Some w) None None None None, g)
  | FOption g => at_option opterr posixly_correct longonly options los g
  end).

(** src/argtable3.c:1920-1932, 1939-1946, 1953-1961 *)
Definition getopt (opterr posixly_correct : bool) (options : str) : gopt -> cres (out * gopt) :=
  getopt_internal opterr posixly_correct false false options None.
Definition getopt_long (opterr posixly_correct : bool) (options : str) (los : list long) : gopt -> cres (out * gopt) :=
  getopt_internal opterr posixly_correct true false options (Some los).
Definition getopt_long_only (opterr posixly_correct : bool) (options : str) (los : list long) : gopt -> cres (out * gopt) :=
  getopt_internal opterr posixly_correct true true options (Some los).

(** A caller that calls until it gets -1: the outcomes before that, and the variables after it.  [None]: not within
    [fuel] calls. *)
Fixpoint until_done (get : gopt -> cres (out * gopt)) (fuel : nat) (g : gopt) : option (cres (list out * gopt)) :=
  match fuel with
  | 0 => None
  | S fuel =>
      match get g with
      | UB => Some UB
      | Val (r, g') =>
          if (r_value r =? DONE)%Z then Some (Val ([], g'))
          else option_map (fun x => cbind x (fun '(rs, g2) => Val (r :: rs, g2))) (until_done get fuel g')
      end
  end.

(** The variables of a program that has not called getopt yet (src/argtable3.c:1340-1341, 1367-1371). *)
Definition fresh (argv : list str) : gopt := mkG argv 1 [] None None false.
