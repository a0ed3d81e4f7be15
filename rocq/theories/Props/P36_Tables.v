(** Making, checking and freeing a table of options, for any caller.  Specification: Spec/TableSpec.v. *)
From Coq Require Import ZArith Bool List.
From Verif.Base Require Import CInt.
From Verif.Model Require Import Tables.
From Verif.Spec Require Import TableSpec.
From Verif.Proofs Require Import TableProofs.
Import ListNotations.
Open Scope Z_scope.

(** A table is made exactly if every request is granted; then its objects are new and distinct, with NULL only where the
    caller wrote it. *)
Theorem C91_made :
  forall p h flags got, sound_malloc h flags got 0 ->
  (forall k, (k < asked_for flags)%nat -> got k <> None) ->
  exists t h', make_table p h flags got 0 = Made (t, h') /\ as_asked h' flags t /\ grown h (addresses t) h'.
Proof. intros p h flags got S K. apply (make_all p flags h got 0 S). intros k Hk. apply K, Hk. Qed.
Print Assumptions C91_made.

(** If one is not, the process ends (with the panic function of the library or any that does not return); a panic
    function that returns makes it undefined: no object is ever NULL, so that the documented check for NULL finds
    nothing. *)
Theorem C91_refused :
  forall p h flags got k, (k < asked_for flags)%nat -> got k = None ->
  make_table p h flags got 0 = match p with PEnds => Ended | PReturns => MUndef end.
Proof. intros p h flags got k L G. apply (make_fails p flags h got 0 k); [split; [apply Nat.le_0_l|exact L]|exact G]. Qed.
Print Assumptions C91_refused.

(** arg_nullcheck tells whether a NULL comes before the end; it is defined exactly if there is one or the other, and reads
    nothing behind. *)
Theorem C91_nullcheck :
  forall h, arg_nullcheck h None = Val 1 /\
  forall t r, Z.of_nat (length t) <= INT_MAX ->
  (arg_nullcheck h (Some t) = Val r <->
   exists l s, up_to_end h t l s /\ r = match s with AtNull => 1 | AtEnd => 0 end).
Proof. intros h. split; [reflexivity|]. intros t r L. exact (nullcheck_iff h t r L). Qed.
Print Assumptions C91_nullcheck.

(** arg_free frees the objects up to the first NULL or the end, each once, writes NULL in their place and touches nothing
    else; it is defined exactly if there is an end and no object is there twice. *)
Theorem C91_free :
  forall h t, Z.of_nat (length t) <= INT_MAX ->
  (forall t' h', arg_free h t = Val (t', h') ->
   exists l s, up_to_end h t l s /\ NoDup l /\ t' = cut l t /\ without h l h') /\
  (forall l s, up_to_end h t l s -> NoDup l -> exists h', arg_free h t = Val (cut l t, h')).
Proof.
  intros h t L. split; [intros t' h'; exact (free_sound t h 0 t' h')|]. intros l s U D.
  destruct (free_complete t h l s 0 U D (Z.le_refl 0) L) as [h' [E W]]. exists h'. exact E.
Qed.
Print Assumptions C91_free.

(** arg_freetable frees the objects among the first [n] elements, each once, leaves these elements NULL and touches nothing
    else; it is defined exactly if the table has them, and they are there and no two the same. *)
Theorem C91_freetable :
  forall h t n,
  (forall t' h', arg_freetable h t n = Val (t', h') ->
   (n <= length t)%nat /\ NoDup (addresses (firstn n t)) /\ alive h (addresses (firstn n t)) /\
   t' = repeat None n ++ skipn n t /\ without h (addresses (firstn n t)) h') /\
  ((n <= length t)%nat -> NoDup (addresses (firstn n t)) -> alive h (addresses (firstn n t)) ->
   exists h', arg_freetable h t n = Val (repeat None n ++ skipn n t, h')).
Proof.
  intros h t n. split; [intros t' h'; exact (freetable_sound n h t t' h')|]. intros L D A.
  destruct (freetable_complete n h t L D A) as [h' [E W]]. exists h'. exact E.
Qed.
Print Assumptions C91_freetable.

(** From the making to the end: arg_freetable gives back exactly what was taken, with NULLs in the table or without; so
    does arg_free followed by arg_freetable; and calling either again does nothing. *)
Theorem C91_given_back :
  forall h t h', grown h (addresses t) h' ->
  (exists h'', arg_freetable h' t (length t) = Val (repeat None (length t), h'') /\ same h h'') /\
  (forall t1 h1, arg_free h' t = Val (t1, h1) ->
   exists h2, arg_freetable h1 t1 (length t) = Val (repeat None (length t), h2) /\ same h h2) /\
  (forall g n, arg_freetable g (repeat None n) n = Val (repeat None n, g)) /\
  (forall g n, n <> O -> arg_free g (repeat None n) = Val (repeat None n, g)).
Proof.
  intros h t h' G. split; [exact (life_freetable h t h' G)|].
  split; [intros t1 h1; exact (free_then_freetable h t h' t1 h1 G)|]. split; [exact freetable_nulls|exact free_nulls].
Qed.
Print Assumptions C91_given_back.

(** arg_free alone gives everything back exactly if no object stands behind the first NULL or the end. *)
Theorem C91_free_alone :
  forall h t h' t1 h1, grown h (addresses t) h' -> arg_free h' t = Val (t1, h1) ->
  (same h h1 <-> exists l s, up_to_end h' t l s /\ addresses t = l).
Proof. exact free_all_iff. Qed.
Print Assumptions C91_free_alone.

(** It does so for every table made as documented: no NULL, and the one object made by arg_end in the last place. *)
Theorem C91_documented :
  forall p h pre f got t h', sound_malloc h (map Some pre ++ [Some f]) got 0 ->
  Forall (fun f => Z.odd f = false) pre -> Z.odd f = true ->
  (forall k, (k < asked_for (map Some pre ++ [Some f]))%nat -> got k <> None) ->
  make_table p h (map Some pre ++ [Some f]) got 0 = Made (t, h') ->
  Z.of_nat (length t) <= INT_MAX ->
  arg_nullcheck h' (Some t) = Val 0 /\
  exists h'', arg_free h' t = Val (repeat None (length t), h'') /\ same h h''.
Proof. exact documented. Qed.
Print Assumptions C91_documented.

(** ** Cases *)

(** The table of src/main.c:13-40: two switches, seventeen options with values, and arg_end. *)
Definition main_flags : list Z := [0; 0; 2; 2; 2; 2; 2; 2; 2; 2; 2; 2; 2; 2; 2; 2; 2; 2; 2].
Definition empty_heap : objects := fun _ => None.
Definition some_malloc : nat -> option Z := fun n => Some (4096 + 512 * Z.of_nat n).

Example C91_main_table :
  exists t h', make_table PEnds empty_heap (map Some main_flags ++ [Some 1]) some_malloc 0 = Made (t, h') /\
  length t = 20%nat /\ nth 3 t None = Some 5632 /\ h' 5632 = Some 2 /\ h' 13824 = Some 1 /\
  arg_nullcheck h' (Some t) = Val 0.
Proof. do 2 eexists. split; [reflexivity|]. vm_compute. repeat split. Qed.

Example C91_main_malloc : sound_malloc empty_heap (map Some main_flags ++ [Some 1]) some_malloc 0.
Proof. cbn. repeat (split; [reflexivity|intros a [= <-]]). exact Logic.I. Qed.

(** A NULL in the middle: arg_free leaves the last two objects, arg_freetable then frees them. *)
Example C91_leak :
  exists t h' t1 h1, make_table PReturns empty_heap [Some 2; None; Some 0; Some 1] some_malloc 0 = Made (t, h') /\
  arg_nullcheck h' (Some t) = Val 1 /\
  arg_free h' t = Val (t1, h1) /\ h1 4096 = None /\ h1 4608 = Some 0 /\ h1 5120 = Some 1 /\
  exists h2, arg_freetable h1 t1 4 = Val ([None; None; None; None], h2) /\ h2 4608 = None /\ h2 5120 = None.
Proof. do 4 eexists. split; [reflexivity|]. split; [reflexivity|]. split; [reflexivity|]. split; [reflexivity|].
  split; [reflexivity|]. split; [reflexivity|]. eexists. split; [reflexivity|]. split; reflexivity. Qed.

(** No end, and an object that is there twice: undefined. *)
Example C91_undefined :
  let h := put_object (put_object empty_heap 16 2) 32 1 in
  arg_nullcheck h (Some [Some 16]) = UB /\ arg_free h [Some 16; Some 16; Some 32] = UB /\
  arg_freetable h [Some 32; Some 32] 2 = UB /\ arg_freetable h [Some 32] 2 = UB.
Proof. repeat split. Qed.

(** The third request fails: with the panic function of the library the process ends, with one that returns the write
    through NULL is undefined. *)
Example C91_third_fails :
  let got := fun n => if Nat.eqb n 2 then None else some_malloc n in
  make_table PEnds empty_heap (map Some main_flags ++ [Some 1]) got 0 = Ended /\
  make_table PReturns empty_heap (map Some main_flags ++ [Some 1]) got 0 = MUndef.
Proof. split; reflexivity. Qed.
