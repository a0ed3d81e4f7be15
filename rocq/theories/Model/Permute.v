(** src/argtable3.c:1470-1523: exchange of two adjacent blocks of argv. *)
From Coq Require Import Arith List.
From Verif.Base Require Import CInt.
Import ListNotations.

(** src/argtable3.c:1473-1486.  [fuel] bounds the number of rounds; the caller
    gives [b], and running out is [UB] (it never happens: see gcd_is_gcd).
    [a % 0] is undefined behaviour.  ints that are indices are [nat]. *)
Fixpoint gcd_loop (fuel a b : nat) : cres nat :=
  match b with
  | 0 => UB
  | S _ =>
      match a mod b with
      | 0 => Val b
      | S c => match fuel with 0 => UB | S fuel => gcd_loop fuel b (S c) end
      end
  end.
Definition gcd (a b : nat) : cres nat := gcd_loop b a b.

Fixpoint upd {A} (i : nat) (x : A) (l : list A) : list A :=
  match l, i with
  | [], _ => []
  | _ :: r, 0 => x :: r
  | y :: r, S i => y :: upd i x r
  end.

(** src/argtable3.c:1516-1520; an index outside argv is [UB]. *)
Definition swap_at {A} (pos cstart : nat) (nargv : list A) : cres (list A) :=
  match nth_error nargv pos, nth_error nargv cstart with
  | Some swap, Some x => Val (upd cstart swap (upd pos x nargv))
  | _, _ => UB
  end.

(** src/argtable3.c:1511-1521: [j] rounds of one cycle. *)
Fixpoint cycle {A} (j nnonopts nopts panonopt_end cstart pos : nat) (nargv : list A) : cres (list A) :=
  match j with
  | 0 => Val nargv
  | S j =>
      let pos := if panonopt_end <=? pos then pos - nnonopts else pos + nopts in
      cbind (swap_at pos cstart nargv) (cycle j nnonopts nopts panonopt_end cstart pos)
  end.

(** src/argtable3.c:1508-1522: cycles [i], [i+1], ... ([k] of them). *)
Fixpoint cycles {A} (k i cyclelen nnonopts nopts panonopt_end : nat) (nargv : list A) : cres (list A) :=
  match k with
  | 0 => Val nargv
  | S k =>
      let cstart := panonopt_end + i in
      cbind (cycle cyclelen nnonopts nopts panonopt_end cstart cstart nargv)
            (cycles k (S i) cyclelen nnonopts nopts panonopt_end)
  end.

(** src/argtable3.c:1493-1523. *)
Definition permute_args {A} (panonopt_start panonopt_end opt_end : nat) (nargv : list A) : cres (list A) :=
  let nnonopts := panonopt_end - panonopt_start in
  let nopts := opt_end - panonopt_end in
  cbind (gcd nnonopts nopts) (fun ncycle =>
  let cyclelen := (opt_end - panonopt_start) / ncycle in
  cycles ncycle 0 cyclelen nnonopts nopts panonopt_end nargv).
