(** C integer ranges and conversions on x86-64 Linux (LP64), as fixed by the
    System V ABI and by gcc's documented modular conversions.  Nothing here
    models a function of /repo; the other files use these definitions where the
    C code performs an arithmetic operation or a conversion. *)
From Coq Require Import ZArith Bool Lia.
Open Scope Z_scope.

Definition INT_MAX  : Z := 2147483647.
Definition INT_MIN  : Z := -2147483648.
Definition LONG_MAX : Z := 9223372036854775807.
Definition LONG_MIN : Z := -9223372036854775808.
Definition U32_MOD  : Z := 4294967296.
Definition U64_MOD  : Z := 18446744073709551616.

Definition in_int  (z : Z) : bool := (INT_MIN <=? z) && (z <=? INT_MAX).
Definition in_long (z : Z) : bool := (LONG_MIN <=? z) && (z <=? LONG_MAX).

(** [(int) z] for a wider signed [z]: modular (gcc). *)
Definition cast_int (z : Z) : Z := (z + 2147483648) mod U32_MOD - 2147483648.
(** [(unsigned) z], [(uid_t) z], [(gid_t) z]. *)
Definition cast_u32 (z : Z) : Z := z mod U32_MOD.
(** [(rlim_t) z], [(size_t) z], [(unsigned long) z]. *)
Definition cast_u64 (z : Z) : Z := z mod U64_MOD.

(** A value or undefined behaviour. *)
Inductive cres (A : Type) : Type :=
| Val (a : A)
| UB.
Arguments Val {A} a.
Arguments UB {A}.

Definition cbind {A B} (m : cres A) (k : A -> cres B) : cres B :=
  match m with Val a => k a | UB => UB end.

(** Signed arithmetic in [int] / [long]: overflow is undefined behaviour. *)
Definition int_op  (z : Z) : cres Z := if in_int z then Val z else UB.
Definition long_op (z : Z) : cres Z := if in_long z then Val z else UB.

(** C99 integer division truncates toward zero ([Z.quot]). *)
Definition cdiv (a b : Z) : Z := Z.quot a b.

Lemma in_int_iff z : in_int z = true <-> INT_MIN <= z <= INT_MAX.
Proof. unfold in_int. rewrite andb_true_iff, !Z.leb_le. tauto. Qed.

Lemma in_long_iff z : in_long z = true <-> LONG_MIN <= z <= LONG_MAX.
Proof. unfold in_long. rewrite andb_true_iff, !Z.leb_le. tauto. Qed.

Lemma cast_int_id z : INT_MIN <= z <= INT_MAX -> cast_int z = z.
Proof.
  unfold cast_int, INT_MIN, INT_MAX, U32_MOD. intros H.
  rewrite Z.mod_small; lia.
Qed.

Lemma cast_int_range z : INT_MIN <= cast_int z <= INT_MAX.
Proof.
  unfold cast_int, INT_MIN, INT_MAX, U32_MOD.
  pose proof (Z.mod_pos_bound (z + 2147483648) 4294967296). lia.
Qed.

Lemma cast_u32_id z : 0 <= z < U32_MOD -> cast_u32 z = z.
Proof. intros; unfold cast_u32; apply Z.mod_small; assumption. Qed.

Lemma cast_u64_id z : 0 <= z < U64_MOD -> cast_u64 z = z.
Proof. intros; unfold cast_u64; apply Z.mod_small; assumption. Qed.

Lemma cast_u32_neg1 : cast_u32 (-1) = 4294967295.
Proof. reflexivity. Qed.
