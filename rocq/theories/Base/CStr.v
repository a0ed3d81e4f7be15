(** Byte strings.  A C string is the list of its bytes without the terminating
    NUL; reading the byte at the end of the list gives NUL.  A Coq string
    literal is turned into bytes by [lit].  Nothing here models a function of
    /repo except where cited. *)
From Coq Require Import ZArith Bool List Ascii String Lia.
Import ListNotations.

Definition str : Type := list ascii.
Definition lit (s : string) : str := list_ascii_of_string s.

Definition NUL : ascii := "000"%char.
Definition code (c : ascii) : N := N_of_ascii c.

(** A C string contains no NUL byte. *)
Definition no_nul (s : str) : Prop := ~ In NUL s.

Definition aeqb (a b : ascii) : bool := Ascii.eqb a b.

Fixpoint str_eqb (a b : str) : bool :=
  match a, b with
  | [], [] => true
  | x :: a', y :: b' => aeqb x y && str_eqb a' b'
  | _, _ => false
  end.

(** [p] is a prefix of [s] ([strncmp(s, p, strlen(p)) == 0]). *)
Fixpoint prefixb (p s : str) : bool :=
  match p, s with
  | [], _ => true
  | x :: p', y :: s' => aeqb x y && prefixb p' s'
  | _ :: _, [] => false
  end.

(** <ctype.h> [isspace] in the C locale: space, \t \n \v \f \r.  Bytes >= 128
    are not space (glibc's tables are defined for negative [char] values). *)
Definition isspace (c : ascii) : bool :=
  let n := code c in (N.eqb n 32 || (N.leb 9 n && N.leb n 13))%bool.

(** <ctype.h> [toupper] in the C locale. *)
Definition toupper (c : ascii) : ascii :=
  let n := code c in
  if (N.leb 97 n && N.leb n 122)%bool then ascii_of_N (n - 32) else c.

Lemma aeqb_eq a b : aeqb a b = true <-> a = b.
Proof. unfold aeqb. apply Ascii.eqb_eq. Qed.

Lemma aeqb_refl a : aeqb a a = true.
Proof. apply aeqb_eq; reflexivity. Qed.

Lemma aeqb_neq a b : aeqb a b = false <-> a <> b.
Proof.
  rewrite <- aeqb_eq. destruct (aeqb a b); split; intro H;
    try discriminate; try reflexivity; try (exfalso; apply H; reflexivity).
Qed.

Lemma str_eqb_eq a b : str_eqb a b = true <-> a = b.
Proof.
  revert b; induction a as [|x a IH]; intros [|y b]; simpl;
    try (split; intro H; discriminate || reflexivity).
  rewrite andb_true_iff, aeqb_eq, IH. split.
  - intros [-> ->]; reflexivity.
  - intros H; injection H as -> ->; split; reflexivity.
Qed.

Lemma str_eqb_refl a : str_eqb a a = true.
Proof. apply str_eqb_eq; reflexivity. Qed.

Lemma str_eqb_neq a b : str_eqb a b = false <-> a <> b.
Proof.
  rewrite <- str_eqb_eq. destruct (str_eqb a b); split; intro H;
    try discriminate; try reflexivity; try (exfalso; apply H; reflexivity).
Qed.

Lemma prefixb_spec p s : prefixb p s = true <-> exists t, s = p ++ t.
Proof.
  revert s; induction p as [|x p IH]; intros s; simpl.
  - split; intro; [exists s|]; reflexivity.
  - destruct s as [|y s].
    + split; [discriminate|]. intros [t H]; discriminate.
    + rewrite andb_true_iff, aeqb_eq, IH. split.
      * intros [-> [t ->]]. exists t; reflexivity.
      * intros [t H]. injection H as -> ->. split; [reflexivity|exists t; reflexivity].
Qed.

Definition str_eq_dec (a b : str) : {a = b} + {a <> b} :=
  list_eq_dec ascii_dec a b.
