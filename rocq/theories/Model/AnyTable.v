(** src/argtable3.c: arg_parse on any table.  Model/Argtable.v is the same code for
    tables of arg_lit, arg_int and arg_str; here the functions of an entry are
    arguments, and an option may have several names and an optional value. *)
From Coq Require Import ZArith Bool List Ascii String Arith.
From Verif.Base Require Import CInt CStr.
From Verif.Model Require Import Permute Getopt Argtable.
Import ListNotations.
Open Scope list_scope.
Open Scope nat_scope.

Section Table.
(** What the object behind an entry holds ([hdr.parent]).  Each entry has its own
    object: two entries that share one are not modelled. *)
Variable St : Type.

(** struct arg_hdr (src/argtable3.h:95-109): shortopts and longopts (NULL is
    [None]), the bits ARG_HASVALUE and ARG_HASOPTVALUE of flag, and the scan, check
    and reset functions (NULL is [None]).  A scan function gets the text of the
    value, or NULL, and returns an error code; the code 0 is success. *)
Record hdr : Type := mkHdr {
  h_short : option str;
  h_long : option str;
  h_hasvalue : bool;
  h_optvalue : bool;
  h_scan : option (option str -> St -> cres (Z * St));
  h_check : option (St -> Z);
  h_reset : option (St -> St)
}.

(** src/argtable3.c:5082-5108. *)
Fixpoint any_longoptions (tabindex : nat) (table : list hdr) : list lopt :=
  match table with
  | [] => []
  | h :: table =>
      map (fun n => mkLopt n (if h_optvalue h then 2 else if h_hasvalue h then 1 else 0) tabindex)
          (match h_long h with Some s => split_commas s | None => [] end)
      ++ any_longoptions (S tabindex) table
  end.

(** src/argtable3.c:5119-5155. *)
Definition any_shortoptions (table : list hdr) : str :=
  ":"%char :: flat_map (fun h =>
    flat_map (fun c => c :: (if h_hasvalue h then [":"%char] else []) ++ (if h_optvalue h then [":"%char] else []))
             (match h_short h with Some s => s | None => [] end)) table.

(** src/argtable3.c:5008-5015. *)
Fixpoint any_shortoption (i : nat) (table : list hdr) (c : ascii) : option nat :=
  match table with
  | [] => None
  | h :: table =>
      match h_short h with
      | Some s => match strchr s c with Some _ => Some i | None => any_shortoption (S i) table c end
      | None => any_shortoption (S i) table c
      end
  end.

Variable table : list hdr.
Variable end_max : nat.

(** The objects, the errors in arg_end, and getopt's state. *)
Record astate : Type := mkA { a_objs : list St; a_errs : list perror; a_get : gopt }.

(** src/argtable3.c:5205-5209, 5246-5251: call the scan function, if there is one,
    and register its error. *)
Definition any_scan (i : nat) (optarg : option str) (objs : list St) (errs : list perror)
  : cres (list St * list perror) :=
  match nth_error table i with
  | None => UB
  | Some h =>
      match h_scan h with
      | None => Val (objs, errs)
      | Some scan =>
          match nth_error objs i with
          | None => UB
          | Some o =>
              cbind (scan optarg o) (fun '(errorcode, o') =>
              Val (upd i o' objs,
                   if (errorcode =? 0)%Z then errs
                   else register_error end_max errs (mkErr (Some i) errorcode optarg)))
          end
      end
  end.

(** src/argtable3.c:5195-5256: the body of the loop for one value of [copt]. *)
Definition any_step (r : gret) (p : astate) : cres astate :=
  let g := a_get p in
  let err (e : perror) := Val (mkA (a_objs p) (register_error end_max (a_errs p) e) g) in
  if (r_code r =? 0)%Z then
    match nth_error table (r_flagval r) with
    | None => UB
    | Some h =>
        cbind (match r_optarg r with
               | Some [] => if h_hasvalue h
                            then cbind (prev_word g) (fun w => Val (register_error end_max (a_errs p) (mkErr None ARG_EMISSARG w)))
                            else Val (a_errs p)
               | _ => Val (a_errs p)
               end) (fun errs =>
        cbind (any_scan (r_flagval r) (r_optarg r) (a_objs p) errs) (fun '(t, errs) =>
        Val (mkA t errs g)))
    end
  else if (r_code r =? BADCH)%Z then
    if (r_optopt r =? 0)%Z then cbind (prev_word g) (fun w => err (mkErr None ARG_ELONGOPT w))
    else err (mkErr None (r_optopt r) None)
  else if (r_code r =? BADARG)%Z then
    cbind (prev_word g) (fun w => err (mkErr None ARG_EMISSARG w))
  else
    match any_shortoption 0 table (ascii_of_N (Z.to_N (r_code r mod 256))) with
    | None => err (mkErr None (r_code r) None)
    | Some i =>
        cbind (any_scan i (r_optarg r) (a_objs p) (a_errs p)) (fun '(t, errs) =>
        Val (mkA t errs g))
    end.

(** src/argtable3.c:5187-5257: the loop over getopt_long.  [None]: not finished
    within [fuel] iterations. *)
Fixpoint any_loop (fuel : nat) (posix : bool) (options : str) (los : list lopt) (p : astate)
  : option (cres astate) :=
  match fuel with
  | 0 => None
  | S fuel =>
      match getopt_long posix options los (a_get p) with
      | UB => Some UB
      | Val (r, g) =>
          if (r_code r =? DONE)%Z then Some (Val (mkA (a_objs p) (a_errs p) g))
          else match any_step r (mkA (a_objs p) (a_errs p) g) with
               | UB => Some UB
               | Val p => any_loop fuel posix options los p
               end
      end
  end.

(** src/argtable3.c:5165-5261. *)
Definition any_tagged (fuel : nat) (posix : bool) (argv : list str) (objs : list St) : option (cres astate) :=
  any_loop fuel posix (any_shortoptions table) (any_longoptions 0 table)
    (mkA objs [] (mkG argv 0 [] None None false)).

(** src/argtable3.c:5270-5316: the loop over the table, from entry [i] on; [words]
    is argv[optind..], [last] is the tentative error.  One call of the scan
    function per step: either a word is used up or the entry is left, and [fuel] is
    the number of both (running out is [UB]; Proofs/AnyTableProofs.v shows that it
    does not happen).  The result: the objects, the words left, and the tentative
    error; [None] if the words ran out. *)
Fixpoint any_untagged (fuel i : nat) (objs : list St) (words : list str) (last : option (nat * Z * str))
  : cres (list St * option (list str * option (nat * Z * str))) :=
  match nth_error table i with
  | None => Val (objs, Some (words, last))
  | Some h =>
      match words with
      | [] => Val (objs, None)
      | w :: words' =>
          match fuel with
          | 0 => UB
          | S fuel =>
              match h_long h, h_short h, h_scan h with
              | None, None, Some scan =>
                  match nth_error objs i with
                  | None => UB
                  | Some o =>
                      cbind (scan (Some w) o) (fun '(errorcode, o') =>
                      if (errorcode =? 0)%Z then any_untagged fuel i (upd i o' objs) words' None
                      else any_untagged fuel (S i) (upd i o' objs) words (Some (i, errorcode, w)))
                  end
              | _, _, _ => any_untagged fuel (S i) objs words last
              end
          end
      end
  end.

(** src/argtable3.c:5317-5332: the tentative error, and the words nobody took. *)
Definition any_leftover (errs : list perror) (r : option (list str * option (nat * Z * str))) : list perror :=
  match r with
  | None => errs
  | Some (words, last) =>
      let '(errs, words) :=
        match last with
        | Some (i, c, w) => (register_error end_max errs (mkErr (Some i) c (Some w)), tl words)
        | None => (errs, words)
        end in
      fold_left (fun errs w => register_error end_max errs (mkErr None ARG_ENOMATCH (Some w))) words errs
  end.

(** src/argtable3.c:5334-5345 (arg_end has no check function). *)
Fixpoint any_check (i : nat) (todo : list hdr) (objs : list St) (errs : list perror) : list perror :=
  match todo, objs with
  | h :: todo, o :: objs =>
      any_check (S i) todo objs
        (match h_check h with
         | None => errs
         | Some check => if (check o =? 0)%Z then errs
                         else register_error end_max errs (mkErr (Some i) (check o) None)
         end)
  | _, _ => errs
  end.

(** src/argtable3.c:5347-5355. *)
Fixpoint any_reset (todo : list hdr) (objs : list St) : list St :=
  match todo, objs with
  | h :: todo, o :: objs => (match h_reset h with None => o | Some reset => reset o end) :: any_reset todo objs
  | _, _ => objs
  end.

(** src/argtable3.c:5357-5410.  The result is the objects and the errors; the
    number of errors is the return value.  [None] as in [any_loop]. *)
Definition any_parse (fuel : nat) (posix : bool) (argv : list str) (objs : list St)
  : option (cres (list St * list perror)) :=
  let objs := any_reset table objs in
  match argv with
  | [] => Some (Val (objs, any_check 0 table objs []))
  | _ =>
      match any_tagged fuel posix argv objs with
      | None => None
      | Some UB => Some UB
      | Some (Val p) =>
          let words := skipn (g_optind (a_get p)) (g_argv (a_get p)) in
          Some (cbind (any_untagged (List.length words + List.length table) 0 (a_objs p) words None) (fun '(objs, r) =>
                let errs := any_leftover (a_errs p) r in
                Val (objs, match errs with [] => any_check 0 table objs [] | _ => errs end)))
      end
  end.
End Table.
Arguments mkHdr {St}.
Arguments h_short {St}.
Arguments h_long {St}.
Arguments h_hasvalue {St}.
Arguments h_optvalue {St}.
Arguments h_scan {St}.
Arguments h_check {St}.
Arguments h_reset {St}.
Arguments mkA {St}.
Arguments a_objs {St}.
Arguments a_errs {St}.
Arguments a_get {St}.
