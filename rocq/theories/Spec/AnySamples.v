(** Sample tables and command lines. *)
From Coq Require Import List ZArith Ascii String Arith.
From Verif.Base Require Import CInt CStr.
From Verif.Model Require Import Argtable.
From Verif.Spec Require Import CmdLine AnyLine AnySpec AnyTableSpec Writing PlainSpec.
Import ListNotations.
Open Scope list_scope.
Open Scope nat_scope.

(** Options: a switch, one whose value may be left out, one with a value, a title
    (arg_rem: nothing behind it), and words. *)
Definition os1 : list opt :=
  [mkOpt (lit "vw") [lit "verbose"; lit "loud"] Nothing;
   mkOpt (lit "l") [lit "level"] MaybeValue;
   mkOpt (lit "o") [lit "output"; lit "verb"] Value;
   mkOpt [] [] Nothing;
   mkOpt [] [] Value].

(** Objects that keep at most two values, and want one. *)
Definition keeper : behaviour (list (option str)) :=
  mkB (Some (fun v s => Val (if List.length s <? 2 then (0%Z, s ++ [v]) else (7%Z, s))))
      (Some (fun s => match s with [] => 8%Z | _ => 0%Z end))
      (Some (fun _ => [])).
Definition bs1 : list (behaviour (list (option str))) :=
  [keeper; keeper; keeper; mkB None None None; keeper].
Definition objs1 : list (list (option str)) := [[None]; []; [Some (lit "old")]; []; []].

Definition words1 : list str := map lit ["-vl3"; "--out=x"; "file"; "-oy"; "--loud"; "--level"; "--"; "-z"]%string.
Definition words2 : list str := map lit ["a"; "-q"; "b"; "--verbos"; "c"; "--o="; "-o"]%string.
Definition words3 : list str := map lit ["file"; "-vv-"; "x"]%string.

(** A table of switches, integers and texts. *)
Definition ps1 : list plain :=
  [mkPlain Flag (lit "vw") [lit "verbose"] 0 3;
   mkPlain Number (lit "n") [lit "number"; lit "count"] 1 2;
   mkPlain Text [] [] 1 1;
   mkPlain Text (lit "o") [] 0 1;
   mkPlain Text [] [] 0 2].
Definition items1 : list item :=
  [Word (lit "first"); Set_ (LettersAlone [(0, "v"%char); (0, "w"%char)]); Set_ (NameWith 1 (lit "count") (lit "0x10"));
   Word (lit "second"); Set_ (LetterThen 1 "n"%char (lit "-7")); Set_ (NameAlone 0 (lit "verbose")); Set_ (LetterWith 3 "o"%char (lit "out"))].
Definition kept1 : list aval :=
  [VNone; VNone; VInt 16; VInt (-7); VNone; VStr (lit "out"); VStr (lit "first"); VStr (lit "second")].
