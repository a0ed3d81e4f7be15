(** arg_file: src/argtable3.c:2864-2942.  The strings are values; a pointer into one is the offset. *)
From Coq Require Import ZArith Bool List Ascii String Arith.
From Verif.Base Require Import CInt CStr CMem.
From Verif.Model Require Import ArgInt.
Import ListNotations.
Open Scope list_scope.
Open Scope nat_scope.

(** strrchr for a character other than the terminator: the offset, [None] for NULL. *)
Fixpoint strrchr (s : str) (c : ascii) : option nat :=
  match s with
  | [] => None
  | d :: s => match strrchr s c with Some i => Some (S i) | None => if aeqb d c then Some 0 else None end
  end.
(** [strcmp(a, b) == 0] *)
Fixpoint str_eqb (a b : str) : bool :=
  match a, b with
  | [], [] => true
  | c :: a, d :: b => aeqb c d && str_eqb a b
  | _, _ => false
  end.
(** Lines 2862-2868, without WIN32. *)
Definition FILESEPARATOR1 : ascii := "/".
Definition FILESEPARATOR2 : ascii := "/".

(** arg_basename, lines 2876-2900, for a file name that is not NULL: the offset in it. *)
Definition arg_basename (filename : str) : nat :=
  let result1 := strrchr filename FILESEPARATOR1 in
  let result2 := strrchr filename FILESEPARATOR2 in
  let result := match result2 with Some i => Some (i + 1) | None => None end in
  let result := match result1 with Some i => Some (i + 1) | None => result end in
  let result := match result with Some i => i | None => 0 end in
  if str_eqb (lit ".") (skipn result filename) || str_eqb (lit "..") (skipn result filename)
  then List.length filename else result.
(** arg_extension, lines 2902-2919, likewise. *)
Definition arg_extension (basename : str) : nat :=
  let result := match strrchr basename "." with Some i => i | None => List.length basename end in
  let result := if result =? 0 then List.length basename else result in
  if List.length (skipn result basename) =? 1 then List.length basename else result.

(** The arrays [filename], [basename] and [extension] of struct arg_file, and [count]. *)
Record arg_file := mkF { f_filename : list str; f_basename : list str; f_extension : list str; f_count : Z }.
(** [a[i] = v] *)
Definition assign (a : list str) (i : Z) (v : str) : cres (list str) :=
  if ((0 <=? i) && (i <? Z.of_nat (List.length a)))%Z
  then Val (firstn (Z.to_nat i) a ++ [v] ++ skipn (S (Z.to_nat i)) a) else UB.
(** arg_file_scanfn, lines 2921-2942. *)
Definition file_scan (maxcount : Z) (f : arg_file) (argval : option str) : cres (Z * arg_file) :=
  if (f_count f =? maxcount)%Z then Val (ARG_ERR_MAXCOUNT, f)
  else match argval with
       | None => Val (0%Z, mkF (f_filename f) (f_basename f) (f_extension f) (f_count f + 1))
       | Some v =>
           let base := skipn (arg_basename v) v in
           let ext := skipn (arg_extension base) base in
           cbind (assign (f_filename f) (f_count f) v) (fun fs =>
           cbind (assign (f_basename f) (f_count f) base) (fun bs =>
           cbind (assign (f_extension f) (f_count f) ext) (fun es =>
           Val (0%Z, mkF fs bs es (f_count f + 1)))))
       end.
