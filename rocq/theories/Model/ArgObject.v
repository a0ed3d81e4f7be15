(** src/argtable3.c: the option objects in memory.  A constructor (arg_litn 3409-3436, arg_intn 3285-3318,
    arg_dbln 2648-2693, arg_strn 4611-4650, arg_rexn 3715-3787, arg_filen 2984-3026, arg_daten 2083-2129,
    arg_end 2767-2801) allocates one block that holds the struct and behind it the arrays of values; the
    scan and reset functions and arg_register_error (4990-5002) read the counts and the pointers back from
    the block.  Sizes and offsets are those of x86-64 (src/argtable3.h:95-166).

    What the words of the command line mean is modelled elsewhere (ArgInt, ArgDate, ArgFile, Trex): here the
    result of the conversion is an argument.  Contents of fresh memory are arbitrary.  Not modelled: the
    texts a constructor prints (arg_rexn). *)
From Coq Require Import ZArith Bool List.
From Verif.Base Require Import CInt.
Import ListNotations.
Open Scope Z_scope.

(** ** A block of memory *)
Record block : Type := mkBlock { b_base : Z; b_size : Z; b_byte : Z -> Z }.   (* byte at an offset *)

Fixpoint le_bytes (n : nat) (z : Z) : list Z :=
  match n with O => [] | S n => (z mod 256) :: le_bytes n (z / 256) end.
Fixpoint le_value (l : list Z) : Z :=
  match l with [] => 0 | x :: r => x + 256 * le_value r end.
Definition len (l : list Z) : Z := Z.of_nat (length l).

Definition put_bytes (f : Z -> Z) (off : Z) (bs : list Z) : Z -> Z :=
  fun x => if (off <=? x) && (x <? off + len bs) then nth (Z.to_nat (x - off)) bs 0 else f x.
Definition get_bytes (f : Z -> Z) (off : Z) (n : nat) : list Z :=
  map (fun i => f (off + Z.of_nat i)) (seq 0 n).

(** Is an access of [n] bytes at [off] inside the block and aligned? *)
Definition access (b : block) (off n al : Z) : bool :=
  (0 <=? off) && (off + n <=? b_size b) && ((b_base b + off) mod al =? 0).
Definition store (b : block) (off al : Z) (bs : list Z) : cres block :=
  if access b off (len bs) al then Val (mkBlock (b_base b) (b_size b) (put_bytes (b_byte b) off bs)) else UB.
Definition load (b : block) (off al : Z) (n : nat) : cres (list Z) :=
  if access b off (Z.of_nat n) al then Val (get_bytes (b_byte b) off n) else UB.

Definition load_int (b : block) (off : Z) : cres Z :=
  cbind (load b off 4 4) (fun l => Val (cast_int (le_value l))).
Definition load_ptr (b : block) (off : Z) : cres Z :=
  cbind (load b off 8 8) (fun l => Val (le_value l)).
Definition store_int (b : block) (off z : Z) : cres block := store b off 4 (le_bytes 4 z).

(** ** Kinds *)
Inductive kind : Type := KLit | KInt | KDbl | KStr | KRex | KFile | KDate | KEnd.

(** src/argtable3.h:115-166 *)
Definition struct_size (K : kind) : Z :=
  match K with KLit => 104 | KInt | KDbl | KStr | KRex => 112 | KFile => 128 | KDate => 120 | KEnd => 128 end.
Definition count_at (K : kind) : Z := match K with KDate => 104 | _ => 96 end.
(** Arrays: how many, where the pointer to array [j] is, size and alignment of its elements. *)
Definition arrays (K : kind) : nat :=
  match K with KLit => 0%nat | KFile | KEnd => 3%nat | _ => 1%nat end.
Definition pointer_at (K : kind) (j : nat) : Z :=
  match K with KDate => 112 | _ => 104 + 8 * Z.of_nat j end.
Definition elem (K : kind) (j : nat) : Z :=
  match K, j with KInt, _ => 4 | KEnd, O => 4 | KDate, _ => 56 | _, _ => 8 end.
Definition elem_align (K : kind) (j : nat) : Z :=
  match K, j with KInt, _ => 4 | KEnd, O => 4 | _, _ => 8 end.

(** ** Constructors *)
Definition size_t (z : Z) : Z := cast_u64 z.

(** The size asked for. *)
Definition nbytes (K : kind) (maxcount : Z) : cres Z :=
  match K with
  | KLit => Val 104                                                           (* 3415 *)
  | KInt => Val (size_t (112 + size_t maxcount * 4))                           (* 3292-3293 *)
  | KDbl => cbind (int_op (maxcount + 1)) (fun n => Val (size_t (112 + size_t n * 8)))   (* 2657-2658 *)
  | KStr => Val (size_t (112 + size_t maxcount * 8))                           (* 4621-4622 *)
  | KRex => Val (size_t (112 + 16 + size_t maxcount * 8))                      (* 3739-3741 *)
  | KFile => Val (size_t (128 + 8 * size_t maxcount + 8 * size_t maxcount + 8 * size_t maxcount))   (* 2992-2995 *)
  | KDate => Val (size_t (120 + size_t maxcount * 56))                         (* 2096-2097 *)
  | KEnd => Val (size_t (128 + size_t maxcount * 4 + size_t maxcount * 8 + size_t maxcount * 8))    (* 2771-2773 *)
  end.

(** Where array [j] begins, for an object at [p]. *)
Definition start (K : kind) (p maxcount : Z) (j : nat) : Z :=
  match K, j with
  | KDbl, _ => let addr := p + 112 in let rem := addr mod 8 in addr + 8 - rem  (* 2683-2685 *)
  | KRex, _ => p + 112 + 16                                                    (* 3757, 3763 *)
  | KFile, O => p + 128                                                        (* 3013-3015 *)
  | KFile, S O => p + 128 + 8 * maxcount
  | KFile, _ => p + 128 + 8 * maxcount + 8 * maxcount
  | KEnd, O => p + 128                                                         (* 2790-2796 *)
  | KEnd, S O => p + 128 + 4 * maxcount
  | KEnd, _ => p + 128 + 4 * maxcount + 8 * maxcount
  | _, _ => p + struct_size K                                                  (* 3313, 4640, 2121 *)
  end.

(** The members a constructor sets: offset, alignment, bytes.  [h] gives the values of the pointers
    that are handed in or constant.  (arg_end leaves its count to arg_end_resetfn.) *)
Definition hdr_fields (h : Z -> Z) (p mincount maxcount : Z) : list (Z * Z * list Z) :=
  [(0, 1, le_bytes 1 (h 0)); (8, 8, le_bytes 8 (h 8)); (16, 8, le_bytes 8 (h 16)); (24, 8, le_bytes 8 (h 24));
   (32, 8, le_bytes 8 (h 32)); (40, 4, le_bytes 4 mincount); (44, 4, le_bytes 4 maxcount); (48, 8, le_bytes 8 p);
   (56, 8, le_bytes 8 (h 56)); (64, 8, le_bytes 8 (h 64)); (72, 8, le_bytes 8 (h 72)); (80, 8, le_bytes 8 (h 80))].
Definition pointer_fields (K : kind) (p maxcount : Z) : list (Z * Z * list Z) :=
  map (fun j => (pointer_at K j, 8, le_bytes 8 (start K p maxcount j))) (seq 0 (arrays K)).
Definition own_fields (K : kind) (h : Z -> Z) (p maxcount : Z) : list (Z * Z * list Z) :=
  match K with
  | KLit => [(96, 4, le_bytes 4 0)]                                            (* 3432 *)
  | KRex => [(88, 8, le_bytes 8 (p + 112)); (112, 8, le_bytes 8 (h 112)); (120, 4, le_bytes 4 (h 120))]
            ++ pointer_fields K p maxcount ++ [(96, 4, le_bytes 4 0)]          (* 3757-3764 *)
  | KDate => pointer_fields K p maxcount ++ [(104, 4, le_bytes 4 0); (96, 8, le_bytes 8 (h 96))]   (* 2121-2125 *)
  | KEnd => pointer_fields K p maxcount                                        (* 2790-2796 *)
  | _ => pointer_fields K p maxcount ++ [(96, 4, le_bytes 4 0)]                (* 3313-3314, 2683-2688, 4640-4641, 3013-3016 *)
  end.

Fixpoint store_all (b : block) (l : list (Z * Z * list Z)) : cres block :=
  match l with
  | [] => Val b
  | (off, al, bs) :: r => cbind (store b off al bs) (fun b => store_all b r)
  end.

(** [arr[i] = v] for the array behind pointer [j] of the object. *)
Definition store_elem (K : kind) (b : block) (j : nat) (i : Z) (v : list Z) : cres block :=
  cbind (load_ptr b (pointer_at K j)) (fun q =>
  store b (q - b_base b + i * elem K j) (elem_align K j) v).
Fixpoint store_row (K : kind) (b : block) (j : nat) (i : Z) (vs : list (list Z)) : cres block :=
  match vs with
  | [] => Val b
  | v :: r => cbind (store_elem K b j i v) (fun b => store_row K b (S j) i r)
  end.
(** The loops at 4644-4645, 3767-3768, 3019-3023: all pointers to "" (at [empty]). *)
Fixpoint fill (K : kind) (b : block) (n : nat) (i : Z) (empty : Z) : cres block :=
  match n with
  | O => Val b
  | S n => cbind (store_row K b 0 i (repeat (le_bytes 8 empty) (arrays K))) (fun b => fill K b n (i + 1) empty)
  end.

(** maxcount = (maxcount < mincount) ? mincount : maxcount *)
Definition real_max (K : kind) (mincount maxcount : Z) : Z :=
  match K with KEnd => maxcount | _ => if maxcount <? mincount then mincount else maxcount end.
Definition real_min (K : kind) (mincount : Z) : Z := match K with KEnd => 1 | _ => mincount end.

(** [base]: the address malloc returns; [junk]: what the memory contains (zeros for arg_daten, which uses
    calloc). *)
Definition make (K : kind) (h : Z -> Z) (base : Z) (junk : Z -> Z) (empty mincount maxcount : Z) : cres block :=
  let maxcount := real_max K mincount maxcount in
  cbind (nbytes K maxcount) (fun size =>
  let b := mkBlock base size (match K with KDate => fun _ => 0 | _ => junk end) in
  cbind (store_all b (hdr_fields h base (real_min K mincount) maxcount ++ own_fields K h base maxcount)) (fun b =>
  match K with
  | KStr | KRex | KFile => fill K b (Z.to_nat maxcount) 0 empty
  | _ => Val b
  end)).

(** ** Use *)
(** What a word means for the option: no value was given, a value it does not accept (with the error
    code), or the values to store. *)
Inductive given : Type := Missing | Refused (code : Z) | Accepted (vals : list (list Z)).

Definition ARG_ERR_MAXCOUNT : Z := 2.
Definition ARG_ERR_MINCOUNT : Z := 1.
Definition ARG_ELIMIT : Z := 1.

Definition bump_count (K : kind) (b : block) (count : Z) : cres block :=
  cbind (int_op (count + 1)) (fun n => store_int b (count_at K) n).

(** arg_date_scanfn copies the old value before it converts the word (2020). *)
Definition old_value (K : kind) (b : block) (count : Z) (g : given) : cres unit :=
  match K, g with
  | _, Missing => Val tt
  | KDate, _ => cbind (load_ptr b (pointer_at K 0)) (fun q =>
                cbind (load b (q - b_base b + count * 56) 8 56) (fun _ => Val tt))
  | _, _ => Val tt
  end.
(** The scan functions: 3363-3372 (lit), 3167-3234 (int), 2577-2607 (dbl), 4555-4572 (str), 3625-3657 (rex),
    2921-2942 (file), 2010-2032 (date). *)
Definition scan (K : kind) (b : block) (g : given) : cres (Z * block) :=
  cbind (load_int b (count_at K)) (fun count =>
  cbind (load_int b 44) (fun maxcount =>
  match K with
  | KLit => if count <? maxcount then cbind (bump_count K b count) (fun b => Val (0, b)) else Val (ARG_ERR_MAXCOUNT, b)
  | _ =>
      if count =? maxcount then Val (ARG_ERR_MAXCOUNT, b)
      else cbind (old_value K b count g) (fun _ =>
           match g with
           | Missing => cbind (bump_count K b count) (fun b => Val (0, b))
           | Refused e => Val (e, b)
           | Accepted vs => cbind (store_row K b 0 count vs) (fun b =>
                            cbind (bump_count K b count) (fun b => Val (0, b)))
           end)
  end)).

(** The reset functions: parent->count = 0. *)
Definition reset (K : kind) (b : block) : cres block := store_int b (count_at K) 0.
(** The check functions. *)
Definition check (K : kind) (b : block) : cres Z :=
  cbind (load_int b (count_at K)) (fun count => cbind (load_int b 40) (fun mincount =>
  Val (if count <? mincount then ARG_ERR_MINCOUNT else 0))).

(** 4990-5002, arg_register_error. *)
Definition register (b : block) (parent error argval : Z) : cres block :=
  cbind (load_int b (count_at KEnd)) (fun count =>
  cbind (load_int b 44) (fun maxcount =>
  if count <? maxcount then
    cbind (store_row KEnd b 0 count [le_bytes 4 error; le_bytes 8 parent; le_bytes 8 argval]) (fun b => bump_count KEnd b count)
  else
    cbind (int_op (maxcount - 1)) (fun i =>
    store_row KEnd b 0 i [le_bytes 4 ARG_ELIMIT; le_bytes 8 (b_base b); le_bytes 8 0]))).
