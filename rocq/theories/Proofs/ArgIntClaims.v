(** What [scan_int] accepts and rejects. *)
From Coq Require Import ZArith Bool List Ascii String Lia.
From Verif.Base Require Import CInt CStr.
From Verif.Model Require Import ArgInt.
From Verif.Spec Require Import IntText.
From Verif.Proofs Require Import ArgIntProofs DecimalFacts.
Import ListNotations.
Open Scope list_scope.
Open Scope Z_scope.

(** ** Units *)
Lemma detect_none s : detectsuffix s [] = true <-> blank s.
Proof.
  rewrite skip_space_blank. destruct s as [|c s]; [cbn; tauto|].
  unfold detectsuffix. destruct (skip_space (c :: s)); split; intros; congruence || discriminate.
Qed.

Lemma detect_two s x y :
  In x ["K"; "M"; "G"]%char -> y = "B"%char ->
  detectsuffix s [x; y] = true <->
  exists a b w, s = a :: b :: w /\ (a = x \/ a = ascii_of_N (N_of_ascii x + 32)) /\
    (b = "B"%char \/ b = "b"%char) /\ blank w.
Proof.
  intros X ->.
  assert (toupper x = x) as Tx by (cbn in X; repeat (destruct X as [<-|X]; [reflexivity|]); destruct X).
  split.
  - intros H. destruct s as [|a s]; [discriminate|]. cbn in H. rewrite Tx in H.
    destruct (aeqb (toupper a) x) eqn:A; [|discriminate].
    destruct s as [|b s]; [discriminate|].
    cbn [detectsuffix] in H. change (toupper "B"%char) with "B"%char in H.
    destruct (aeqb (toupper b) "B"%char) eqn:B; [|discriminate].
    exists a, b, s. split; [reflexivity|].
    apply toupper_is in A; [|cbn in *; tauto]. apply toupper_is in B; [|cbn; tauto].
    split; [exact A|]. split; [exact B|]. apply detect_none. exact H.
  - intros (a & b & w & -> & A & B & W).
    assert (aeqb (toupper a) x = true) as A' by (apply toupper_is; [cbn in *; tauto|exact A]).
    assert (aeqb (toupper b) "B"%char = true) as B' by (apply toupper_is; [cbn; tauto|exact B]).
    cbn. rewrite Tx, A'. change (toupper "B"%char) with "B"%char. rewrite B'. apply detect_none. exact W.
Qed.

Ltac unit_in := cbn; tauto.
Lemma detect_kb s : detectsuffix s (lit "KB") = true <-> exists u w, s = u ++ w /\ unit_text u 1024 /\ blank w.
Proof.
  change (lit "KB") with ["K"; "B"]%char. rewrite detect_two by (cbn; tauto). split.
  - intros (a & b & w & -> & A & B & W). exists [a; b], w. split; [reflexivity|]. split; [|exact W].
    apply unit_kb. destruct A as [->| ->], B as [->| ->]; unit_in.
  - intros (u & w & -> & U & W). inversion U as [|u' I|u' I|u' I]; subst; try lia.
    cbn in I. repeat (destruct I as [<-|I]; [cbn; eexists _, _, _; split; [reflexivity|]; tauto|]). destruct I.
Qed.
Lemma detect_mb s : detectsuffix s (lit "MB") = true <-> exists u w, s = u ++ w /\ unit_text u 1048576 /\ blank w.
Proof.
  change (lit "MB") with ["M"; "B"]%char. rewrite detect_two by (cbn; tauto). split.
  - intros (a & b & w & -> & A & B & W). exists [a; b], w. split; [reflexivity|]. split; [|exact W].
    apply unit_mb. destruct A as [->| ->], B as [->| ->]; unit_in.
  - intros (u & w & -> & U & W). inversion U as [|u' I|u' I|u' I]; subst; try lia.
    cbn in I. repeat (destruct I as [<-|I]; [cbn; eexists _, _, _; split; [reflexivity|]; tauto|]). destruct I.
Qed.
Lemma detect_gb s : detectsuffix s (lit "GB") = true <-> exists u w, s = u ++ w /\ unit_text u 1073741824 /\ blank w.
Proof.
  change (lit "GB") with ["G"; "B"]%char. rewrite detect_two by (cbn; tauto). split.
  - intros (a & b & w & -> & A & B & W). exists [a; b], w. split; [reflexivity|]. split; [|exact W].
    apply unit_gb. destruct A as [->| ->], B as [->| ->]; unit_in.
  - intros (u & w & -> & U & W). inversion U as [|u' I|u' I|u' I]; subst; try lia.
    cbn in I. repeat (destruct I as [<-|I]; [cbn; eexists _, _, _; split; [reflexivity|]; tauto|]). destruct I.
Qed.

(** [e] is a unit of [m] bytes followed by blanks. *)
Definition tail_unit (e : str) (m : Z) : Prop := exists u w, e = u ++ w /\ unit_text u m /\ blank w.

Lemma tail_none e : tail_unit e 1 <-> blank e.
Proof.
  split.
  - intros (u & w & -> & U & W). inversion U; subst; try lia. exact W.
  - intros B. exists [], e. split; [reflexivity|]. split; [constructor|exact B].
Qed.

Lemma unit_cases u m : unit_text u m -> m = 1 \/ m = 1024 \/ m = 1048576 \/ m = 1073741824.
Proof. destruct 1; lia. Qed.

Lemma tail_first e m : tail_unit e m ->
  (m = 1 /\ (e = [] \/ exists c r, e = c :: r /\ isspace c = true)) \/
  (m = 1024 /\ exists c r, e = c :: r /\ (c = "K"%char \/ c = "k"%char)) \/
  (m = 1048576 /\ exists c r, e = c :: r /\ (c = "M"%char \/ c = "m"%char)) \/
  (m = 1073741824 /\ exists c r, e = c :: r /\ (c = "G"%char \/ c = "g"%char)).
Proof.
  intros (u & w & -> & U & W). destruct U as [|u I|u I|u I].
  - left. split; [reflexivity|]. cbn. inversion W as [|c r C W']; subst; [left; reflexivity|].
    right. exists c, r. split; [reflexivity|]. apply isspace_blank. exact C.
  - right; left. split; [reflexivity|]. cbn in I. repeat (destruct I as [<-|I]; [cbn; eexists _, _; split; [reflexivity|]; tauto|]). destruct I.
  - right; right; left. split; [reflexivity|]. cbn in I. repeat (destruct I as [<-|I]; [cbn; eexists _, _; split; [reflexivity|]; tauto|]). destruct I.
  - right; right; right. split; [reflexivity|]. cbn in I. repeat (destruct I as [<-|I]; [cbn; eexists _, _; split; [reflexivity|]; tauto|]). destruct I.
Qed.

Lemma tail_unique e m m' : tail_unit e m -> tail_unit e m' -> m = m'.
Proof.
  intros H H'. apply tail_first in H, H'.
  destruct H as [[-> A]|[[-> A]|[[-> A]|[-> A]]]], H' as [[-> A']|[[-> A']|[[-> A']|[-> A']]]]; try reflexivity;
    exfalso;
    repeat match goal with
    | H : _ \/ exists _, _ |- _ => destruct H as [->|H]
    | H : exists _, _ |- _ => destruct H
    | H : _ /\ _ |- _ => destruct H
    end; subst; try discriminate;
    match goal with H : _ :: _ = _ :: _ |- _ => injection H as -> -> end;
    repeat match goal with H : _ \/ _ |- _ => destruct H end; subst; discriminate.
Qed.

(** ** Scaling *)
Definition code_of (v m : Z) : scanned :=
  if (INT_MIN <=? v * m) && (v * m <=? INT_MAX) then Stored (v * m) else Failed ARG_ERR_OVERFLOW.

Lemma scale_unit v e m : tail_unit e m -> scale v e = code_of v m.
Proof.
  intros U. unfold scale, code_of.
  destruct (detectsuffix e (lit "KB")) eqn:K.
  { apply detect_kb in K. rewrite (tail_unique _ _ _ U K).
    change (cdiv INT_MAX 1024) with 2097151. change (cdiv INT_MIN 1024) with (-2097152).
    unfold INT_MAX, INT_MIN.
    destruct ((2097151 <? v) || (v <? -2097152)) eqn:E; cbn [Z.eqb ARG_ERR_OVERFLOW].
    - replace ((-2147483648 <=? v * 1024) && (v * 1024 <=? 2147483647)) with false by lia. reflexivity.
    - replace ((2147483647 <? v) || (v <? -2147483648)) with false by lia. cbn [Z.eqb].
      replace ((-2147483648 <=? v * 1024) && (v * 1024 <=? 2147483647)) with true by lia.
      rewrite cast_int_id by (unfold INT_MIN, INT_MAX; lia). reflexivity. }
  destruct (detectsuffix e (lit "MB")) eqn:M.
  { apply detect_mb in M. rewrite (tail_unique _ _ _ U M).
    change (cdiv INT_MAX 1048576) with 2047. change (cdiv INT_MIN 1048576) with (-2048).
    unfold INT_MAX, INT_MIN.
    destruct ((2047 <? v) || (v <? -2048)) eqn:E; cbn [Z.eqb ARG_ERR_OVERFLOW].
    - replace ((-2147483648 <=? v * 1048576) && (v * 1048576 <=? 2147483647)) with false by lia. reflexivity.
    - replace ((2147483647 <? v) || (v <? -2147483648)) with false by lia. cbn [Z.eqb].
      replace ((-2147483648 <=? v * 1048576) && (v * 1048576 <=? 2147483647)) with true by lia.
      rewrite cast_int_id by (unfold INT_MIN, INT_MAX; lia). reflexivity. }
  destruct (detectsuffix e (lit "GB")) eqn:G.
  { apply detect_gb in G. rewrite (tail_unique _ _ _ U G).
    change (cdiv INT_MAX 1073741824) with 1. change (cdiv INT_MIN 1073741824) with (-2).
    unfold INT_MAX, INT_MIN.
    destruct ((1 <? v) || (v <? -2)) eqn:E; cbn [Z.eqb ARG_ERR_OVERFLOW].
    - replace ((-2147483648 <=? v * 1073741824) && (v * 1073741824 <=? 2147483647)) with false by lia. reflexivity.
    - replace ((2147483647 <? v) || (v <? -2147483648)) with false by lia. cbn [Z.eqb].
      replace ((-2147483648 <=? v * 1073741824) && (v * 1073741824 <=? 2147483647)) with true by lia.
      rewrite cast_int_id by (unfold INT_MIN, INT_MAX; lia). reflexivity. }
  assert (m = 1) as ->.
  { pose proof U as (u & w & E & Un & W). destruct (unit_cases _ _ Un) as [->|[->|[->| ->]]]; [reflexivity|..]; exfalso.
    - assert (detectsuffix e (lit "KB") = true) by (apply detect_kb; exact U). congruence.
    - assert (detectsuffix e (lit "MB") = true) by (apply detect_mb; exact U). congruence.
    - assert (detectsuffix e (lit "GB") = true) by (apply detect_gb; exact U). congruence. }
  apply tail_none in U. apply detect_none in U. rewrite U. cbn [negb]. rewrite Z.mul_1_r.
  destruct ((INT_MAX <? v) || (v <? INT_MIN)) eqn:E.
  - replace ((INT_MIN <=? v) && (v <=? INT_MAX)) with false by (unfold INT_MIN, INT_MAX in *; lia). reflexivity.
  - cbn [Z.eqb]. replace ((INT_MIN <=? v) && (v <=? INT_MAX)) with true by (unfold INT_MIN, INT_MAX in *; lia).
    rewrite cast_int_id by (unfold INT_MIN, INT_MAX in *; lia). reflexivity.
Qed.

Lemma scale_bad v e : (forall m, ~ tail_unit e m) -> scale v e = Failed ARG_ERR_BADINT.
Proof.
  intros N. unfold scale.
  destruct (detectsuffix e (lit "KB")) eqn:K; [apply detect_kb in K; destruct (N _ K)|].
  destruct (detectsuffix e (lit "MB")) eqn:M; [apply detect_mb in M; destruct (N _ M)|].
  destruct (detectsuffix e (lit "GB")) eqn:G; [apply detect_gb in G; destruct (N _ G)|].
  destruct (detectsuffix e []) eqn:E; [apply detect_none, tail_none in E; destruct (N _ E)|].
  reflexivity.
Qed.

Lemma tail_dec e : (exists m, tail_unit e m) \/ (forall m, ~ tail_unit e m).
Proof.
  destruct (detectsuffix e (lit "KB")) eqn:K; [apply detect_kb in K; left; exists 1024; exact K|].
  destruct (detectsuffix e (lit "MB")) eqn:M; [apply detect_mb in M; left; exists 1048576; exact M|].
  destruct (detectsuffix e (lit "GB")) eqn:G; [apply detect_gb in G; left; exists 1073741824; exact G|].
  destruct (detectsuffix e []) eqn:E; [apply detect_none, tail_none in E; left; exists 1; exact E|].
  right. intros m U. pose proof U as (u & w & _ & Un & _).
  destruct (unit_cases _ _ Un) as [->|[->|[->| ->]]].
  - apply tail_none, detect_none in U. congruence.
  - apply detect_kb in U. congruence.
  - apply detect_mb in U. congruence.
  - apply detect_gb in U. congruence.
Qed.

Lemma tail_no_digit e m b : base_ok b -> tail_unit e m -> no_digit b e /\ ~ x_head e.
Proof.
  intros B U. apply tail_first in U.
  assert (forall c r, e = c :: r -> isspace c = true \/ In c ["K"; "k"; "M"; "m"; "G"; "g"]%char ->
            no_digit b e /\ ~ x_head e) as H.
  { intros c r -> C. split.
    - intros x X (d & D). injection X as <-. apply digit_of_complete in D; [|exact B].
      revert D C. destruct B as [->|[->|[->| ->]]]; all_chars c; vm_compute; intros D C; try discriminate D;
        repeat (destruct C as [C|C]; try discriminate C); destruct C.
    - intros (x & r' & E & X). injection E as <- <-. revert X C. 
      all_chars c; vm_compute; intros X C; try discriminate X;
        repeat (destruct C as [C|C]; try discriminate C); destruct C. }
  destruct U as [[_ [->|(c & r & E & C)]]|[[_ (c & r & E & C)]|[[_ (c & r & E & C)]|[_ (c & r & E & C)]]]].
  - split; [intros x X; discriminate X|intros (x & r & X & _); discriminate X].
  - apply (H c r E). left. exact C.
  - apply (H c r E). right. cbn. destruct C; subst; tauto.
  - apply (H c r E). right. cbn. destruct C; subst; tauto.
  - apply (H c r E). right. cbn. destruct C; subst; tauto.
Qed.

Lemma x_head_no_unit e m : x_head e -> ~ tail_unit e m.
Proof. intros X U. destruct (tail_no_digit e m 10) as [_ N]; [unfold base_ok; auto|exact U|]. exact (N X). Qed.

(** ** Clamping does not matter after scaling *)
Lemma code_clamp z u m :
  (z = 1 \/ z = -1) -> (m = 1 \/ m = 1024 \/ m = 1048576 \/ m = 1073741824) ->
  code_of (z * clamp_long u) m = code_of (z * u) m.
Proof.
  intros Z M. unfold code_of, clamp_long, INT_MIN, INT_MAX, LONG_MIN, LONG_MAX.
  destruct (u <? -9223372036854775808) eqn:A; [|destruct (9223372036854775807 <? u) eqn:B; [|reflexivity]].
  - replace ((-2147483648 <=? z * -9223372036854775808 * m) && (z * -9223372036854775808 * m <=? 2147483647))
      with false by (destruct Z as [->| ->], M as [->|[->|[->| ->]]]; lia).
    replace ((-2147483648 <=? z * u * m) && (z * u * m <=? 2147483647))
      with false by (destruct Z as [->| ->], M as [->|[->|[->| ->]]]; lia). reflexivity.
  - replace ((-2147483648 <=? z * 9223372036854775807 * m) && (z * 9223372036854775807 * m <=? 2147483647))
      with false by (destruct Z as [->| ->], M as [->|[->|[->| ->]]]; lia).
    replace ((-2147483648 <=? z * u * m) && (z * u * m <=? 2147483647))
      with false by (destruct Z as [->| ->], M as [->|[->|[->| ->]]]; lia). reflexivity.
Qed.

Lemma sign_val sg z : sign sg z -> z = 1 \/ z = -1.
Proof. destruct 1; auto. Qed.

(** ** The grammar in terms of [inner] and [prefixed] *)
Lemma number_inv t v :
  number t v <-> inner 10 t v \/ exists p b z u, radix p b /\ prefixed p b t z u /\ v = z * u.
Proof.
  split.
  - destruct 1 as [w sg s ds v W S N|w sg s p b w' sg' s' p' ds v W S R W' S' P' N].
    + left. exists w, sg, s, [], ds, v. cbn [app]. auto 10.
    + right. exists p, b, s, (s' * v). split; [exact R|]. split; [|reflexivity].
      exists w, sg, (w' ++ sg' ++ p' ++ ds). split; [reflexivity|]. split; [exact W|]. split; [exact S|].
      exists w', sg', s', p', ds, v. auto 10.
  - intros [(w & sg & s & p & ds & u & -> & W & S & P & N & ->)|(p & b & z & u & R & (w & sg & t' & -> & W & S & I) & ->)].
    + destruct P as [->|[E _]]; [|discriminate E]. cbn [app]. constructor; assumption.
    + destruct I as (w' & sg' & s' & p' & ds & u' & -> & W' & S' & P' & N & ->).
      apply number_radix with (b := b); assumption.
Qed.

Lemma radix_char_of p b : radix p b -> exists X, radix_char X b.
Proof. unfold radix_char. destruct 1; eexists; eauto 10. Qed.

Lemma inner_first t v b : base_ok b -> inner b t v ->
  exists w sg z r, t = w ++ sg ++ r /\ blank w /\ sign sg z /\ 
    (exists c d r', r = c :: r' /\ digit b c d /\ (forall x r'', r' = x :: r'' -> aeqb (toupper x) "X"%char = true -> b = 16)).
Proof.
  intros B (w & sg & s & p & ds & u & -> & W & S & P & N & ->).
  exists w, sg, s, (p ++ ds). split; [reflexivity|]. split; [exact W|]. split; [exact S|].
  destruct P as [->|[-> R]].
  - destruct (numeral_head _ _ _ N) as (c & d & r & -> & D). exists c, d, r. split; [reflexivity|]. split; [exact D|].
    intros x r'' -> X. exfalso. apply numeral_vals in N. destruct N as (vs & F & _).
    inversion F as [|? ? ? ? _ F']; subst. inversion F' as [|? ? ? ? D' _]; subst.
    destruct (digit_no_space b x _ B D') as (_ & _ & _ & Q). congruence.
  - exists "0"%char, 0. inversion R; subst; (eexists; split; [reflexivity|]; split; [|auto]);
      (split; [lia|left; reflexivity]).
Qed.

(** A decimal text is none of the prefixed ones. *)
Lemma dec_not_prefixed t u rest X b :
  inner 10 t u -> no_digit 10 rest -> radix_char X b ->
  head_not (fun c => In c ["x"; "X"; "o"; "O"; "b"; "B"]%char) rest ->
  strtol0X (t ++ rest) X b = Val None.
Proof.
  intros (w & sg & s & p & ds & v & -> & W & S & P & N & ->) Nd R H.
  destruct P as [->|[E _]]; [|discriminate E]. cbn [app]. rewrite <- !app_assoc.
  apply numeral_vals in N. destruct N as (vs & F & Ne & ->).
  inversion F as [|c d ds' vs' D F' E1 E2]; subst; [congruence|].
  apply (strtol0X_other w sg s); [exact W|exact S| |].
  - intros y Y Z. cbn in Y. injection Y as <-.
    destruct (digit_no_space 10 c d) as (Q1 & Q2 & Q3 & _); [unfold base_ok; auto|exact D|].
    destruct Z as [Z|[Z|Z]]; congruence.
  - intros x r' E. cbn in E. injection E as -> E.
    destruct (aeqb (toupper x) (toupper X)) eqn:C; [|reflexivity]. exfalso.
    assert (In x ["x"; "X"; "o"; "O"; "b"; "B"]%char) as I.
    { destruct R as [[-> ->]|[[-> ->]|[-> ->]]]; apply toupper_is in C; try (cbn; tauto);
        destruct C as [-> | ->]; cbn; tauto. }
    destruct ds' as [|y ds'].
    + cbn in E. subst rest. exact (H x eq_refl I).
    + cbn in E. injection E as -> _. inversion F' as [|? d' ? ? D' _]; subst.
      apply digit_of_complete in D'; [|unfold base_ok; auto].
      cbn in I. repeat (destruct I as [<-|I]; [discriminate D'|]). destruct I.
Qed.

(** A text with prefix [p] is not taken for another prefix. *)
Lemma prefixed_other p b t z u rest X b' :
  radix p b -> prefixed p b t z u -> radix_char X b' -> b <> b' ->
  strtol0X (t ++ rest) X b' = Val None.
Proof.
  intros R (w & sg & t' & -> & W & S & _) RX Ne. rewrite <- !app_assoc.
  apply (strtol0X_other w sg z); [exact W|exact S| |].
  - intros y Y Z. destruct R; cbn in Y; injection Y as <-; destruct Z as [Z|[Z|Z]]; discriminate.
  - intros x r' E. destruct (aeqb (toupper x) (toupper X)) eqn:C; [|reflexivity]. exfalso. apply Ne.
    destruct R; cbn in E; injection E as <- _;
      destruct RX as [[-> ->]|[[-> ->]|[-> ->]]]; try reflexivity; vm_compute in C; discriminate C.
Qed.

Definition chain (s : str) : cres (option (Z * str)) :=
  cbind (strtol0X s "X" 16) (fun r => match r with Some x => Val (Some x) | None =>
  cbind (strtol0X s "O" 8) (fun r => match r with Some x => Val (Some x) | None =>
  cbind (strtol0X s "B" 2) (fun r => match r with Some x => Val (Some x) | None =>
  Val (strtol 10 s) end) end) end).

Lemma scan_chain s :
  scan_int s = cbind (chain s) (fun r => match r with Some (v, e) => Val (scale v e) | None => Val (Failed ARG_ERR_BADINT) end).
Proof.
  unfold scan_int, chain.
  destruct (strtol0X s "X" 16) as [[[v e]|]|]; cbn [cbind]; try reflexivity.
  destruct (strtol0X s "O" 8) as [[[v e]|]|]; cbn [cbind]; try reflexivity.
  destruct (strtol0X s "B" 2) as [[[v e]|]|]; cbn [cbind]; reflexivity.
Qed.

Lemma rcX : radix_char "X" 16. Proof. left; auto. Qed.
Lemma rcO : radix_char "O" 8. Proof. right; left; auto. Qed.
Lemma rcB : radix_char "B" 2. Proof. right; right; auto. Qed.

Lemma chain_prefixed p b t z u rest :
  radix p b -> prefixed p b t z u -> no_digit b rest -> (u = 0 -> ~ x_head rest) ->
  chain (t ++ rest) = cbind (long_op (z * clamp_long u)) (fun v => Val (Some (v, rest))).
Proof.
  intros R P N Xh. unfold chain.
  assert (b = 16 \/ b = 8 \/ b = 2) as [->|[->| ->]] by (destruct R; auto).
  - rewrite (strtol0X_complete p 16 "X" t z u rest rcX R P N Xh).
    destruct (long_op _); reflexivity.
  - rewrite (prefixed_other p 8 t z u rest "X" 16 R P rcX) by lia. cbn [cbind].
    rewrite (strtol0X_complete p 8 "O" t z u rest rcO R P N Xh).
    destruct (long_op _); reflexivity.
  - rewrite (prefixed_other p 2 t z u rest "X" 16 R P rcX) by lia. cbn [cbind].
    rewrite (prefixed_other p 2 t z u rest "O" 8 R P rcO) by lia. cbn [cbind].
    rewrite (strtol0X_complete p 2 "B" t z u rest rcB R P N Xh).
    destruct (long_op _); reflexivity.
Qed.

Lemma chain_dec t u rest m :
  inner 10 t u -> tail_unit rest m -> chain (t ++ rest) = Val (Some (clamp_long u, rest)).
Proof.
  intros I U. destruct (tail_no_digit rest m 10) as [N Xh]; [unfold base_ok; auto|exact U|].
  assert (head_not (fun c => In c ["x"; "X"; "o"; "O"; "b"; "B"]%char) rest) as H.
  { apply tail_first in U. intros c C J.
    destruct U as [[_ [->|(c' & r & -> & U)]]|[[_ (c' & r & -> & U)]|[[_ (c' & r & -> & U)]|[_ (c' & r & -> & U)]]]];
      try discriminate C; injection C as <-; cbn in J;
      repeat (destruct J as [<-|J]; [try discriminate U; destruct U; discriminate|]); destruct J. }
  unfold chain. rewrite !(dec_not_prefixed t u rest) by (assumption || apply rcX || apply rcO || apply rcB).
  cbn [cbind]. rewrite (strtol_complete 10 t u rest); auto. unfold base_ok; auto.
Qed.

Lemma with_unit_iff num s n :
  with_unit num s n <-> exists t v e m, s = t ++ e /\ num t v /\ tail_unit e m /\ n = v * m.
Proof.
  split.
  - intros (t & v & u & m & w & -> & N & U & W & ->). exists t, v, (u ++ w), m.
    split; [reflexivity|]. split; [exact N|]. split; [|reflexivity]. exists u, w. auto.
  - intros (t & v & e & m & -> & N & (u & w & -> & U & W) & ->). exists t, v, u, m, w. auto.
Qed.

Definition min_case (s : str) : Prop :=
  exists p b t u rest, s = t ++ rest /\ radix p b /\ prefixed p b t (-1) u /\ no_digit b rest /\ u <= LONG_MIN.

Lemma long_op_ok z u :
  z = 1 \/ z = -1 -> (z = -1 -> LONG_MIN < u) -> long_op (z * clamp_long u) = Val (z * clamp_long u).
Proof.
  intros Z H. unfold long_op. replace (in_long (z * clamp_long u)) with true; [reflexivity|].
  symmetry. apply in_long_iff. unfold clamp_long, LONG_MIN, LONG_MAX in *.
  destruct (u <? -9223372036854775808) eqn:A, (9223372036854775807 <? u) eqn:B; destruct Z as [->| ->];
    try specialize (H eq_refl); lia.
Qed.

(** The scanner on every string that denotes an integer. *)
Lemma scan_denoted s n :
  int_text s n -> ~ min_case s ->
  scan_int s = Val (if (INT_MIN <=? n) && (n <=? INT_MAX) then Stored n else Failed ARG_ERR_OVERFLOW).
Proof.
  intros H M. apply with_unit_iff in H. destruct H as (t & v & e & m & -> & N & U & ->).
  pose proof U as (u0 & w0 & _ & Un & _). apply unit_cases in Un.
  rewrite scan_chain. apply number_inv in N.
  destruct N as [I|(p & b & z & u & R & P & ->)].
  - rewrite (chain_dec t v e m I U). cbn [cbind]. rewrite (scale_unit _ e m U).
    pose proof (code_clamp 1 v m (or_introl eq_refl) Un) as C. rewrite !Z.mul_1_l in C. rewrite C. reflexivity.
  - destruct (tail_no_digit e m b (radix_base _ _ R) U) as [Nd Xh].
    rewrite (chain_prefixed p b t z u e R P Nd (fun _ => Xh)).
    pose proof P as (w & sg & t' & _ & _ & Sg & _). apply sign_val in Sg.
    rewrite long_op_ok; [cbn [cbind]|exact Sg|].
    + rewrite (scale_unit _ e m U), (code_clamp z u m Sg Un). reflexivity.
    + intros ->. destruct (Z_lt_le_dec LONG_MIN u); [assumption|]. exfalso. apply M.
      exists p, b, t, u, e. auto.
Qed.

Lemma chain_sound s :
  match chain s with
  | UB => min_case s
  | Val None => True
  | Val (Some (v, e)) =>
      (exists t u, s = t ++ e /\ number t u /\
         forall m, tail_unit e m -> scale v e = code_of u m) \/
      x_head e
  end.
Proof.
  assert (forall X b, radix_char X b ->
    match strtol0X s X b with
    | UB => min_case s
    | Val None => True
    | Val (Some (v, e)) =>
        (exists t u, s = t ++ e /\ number t u /\ forall m, tail_unit e m -> scale v e = code_of u m) \/ x_head e
    end) as One.
  { intros X b R. pose proof (strtol0X_sound s X b _ R eq_refl) as H.
    destruct (strtol0X s X b) as [[[v e]|]|]; [|exact I|].
    - destruct H as [(p & t & z & u & Es & Rp & P & -> & N)|[_ H]]; [|right; exact H].
      left. exists t, (z * u). split; [exact Es|]. split; [apply number_inv; right; exists p, b, z, u; auto|].
      intros m U. pose proof U as (u0 & w0 & _ & Un & _). apply unit_cases in Un.
      pose proof P as (w & sg & t' & _ & _ & Sg & _). apply sign_val in Sg.
      rewrite (scale_unit _ e m U). apply code_clamp; assumption.
    - destruct H as (p & t & u & rest & H). exists p, b, t, u, rest. exact H. }
  unfold chain.
  pose proof (One "X"%char 16 rcX) as H1. destruct (strtol0X s "X" 16) as [[[v e]|]|]; cbn [cbind]; try exact H1.
  pose proof (One "O"%char 8 rcO) as H2. destruct (strtol0X s "O" 8) as [[[v e]|]|]; cbn [cbind]; try exact H2.
  pose proof (One "B"%char 2 rcB) as H3. destruct (strtol0X s "B" 2) as [[[v e]|]|]; cbn [cbind]; try exact H3.
  destruct (strtol 10 s) as [[v e]|] eqn:St; [|exact I].
  destruct (strtol_sound 10 s v e) as [(t & u & Es & In_ & -> & N)|(E & _)]; [unfold base_ok; auto|exact St| |discriminate E].
  left. exists t, u. split; [exact Es|]. split; [apply number_inv; left; exact In_|].
  intros m U. pose proof U as (u0 & w0 & _ & Un & _). apply unit_cases in Un.
  rewrite (scale_unit _ e m U). pose proof (code_clamp 1 u m (or_introl eq_refl) Un) as C.
  rewrite !Z.mul_1_l in C. exact C.
Qed.

Lemma scan_sound s :
  match scan_int s with
  | UB => min_case s
  | Val (Stored n) => int_text s n /\ INT_MIN <= n <= INT_MAX
  | Val (Failed c) =>
      (c = ARG_ERR_OVERFLOW /\ exists n, int_text s n /\ ~ (INT_MIN <= n <= INT_MAX)) \/
      c = ARG_ERR_BADINT
  end.
Proof.
  rewrite scan_chain. pose proof (chain_sound s) as H.
  destruct (chain s) as [[[v e]|]|]; cbn [cbind]; [|right; reflexivity|exact H].
  destruct (tail_dec e) as [[m U]|N].
  - destruct H as [(t & u & Es & Nu & Sc)|X]; [|destruct (x_head_no_unit e m X U)].
    rewrite (Sc m U). unfold code_of.
    assert (int_text s (u * m)) as It by (apply with_unit_iff; exists t, u, e, m; auto).
    destruct ((INT_MIN <=? u * m) && (u * m <=? INT_MAX)) eqn:E.
    + split; [exact It|]. apply andb_prop in E. destruct E as [E1 E2].
      apply Z.leb_le in E1. apply Z.leb_le in E2. auto.
    + left. split; [reflexivity|]. exists (u * m). split; [exact It|]. intros [A B].
      apply Z.leb_le in A. apply Z.leb_le in B. rewrite A, B in E. discriminate E.
  - rewrite (scale_bad v e N). right. reflexivity.
Qed.

(** ** Undefined behaviour *)
Lemma min_case_negated s : min_case s <-> negated_min s.
Proof.
  split.
  - intros (p & b & t & u & rest & -> & R & (w & sg & t' & -> & W & S & I) & N & L).
    destruct I as (w' & sg' & s' & p' & ds & v & -> & W' & S' & P' & Nu & ->).
    assert (0 <= v) as V by (apply (numeral_nonneg b ds); [destruct R; lia|exact Nu]).
    unfold LONG_MIN in L. inversion S; subst. inversion S'; subst; try lia.
    exists w, p, b, w', p', ds, v, rest. rewrite <- !app_assoc.
    split; [reflexivity|]. split; [exact W|]. split; [exact R|]. split; [exact W'|]. split; [exact P'|].
    split; [exact Nu|]. split; [change (2 ^ 63) with 9223372036854775808; lia|].
    intros c d C D. apply (N c C). exists d. exact D.
  - intros (w & p & b & w' & p' & ds & v & rest & -> & W & R & W' & P' & Nu & L & N).
    exists p, b, (w ++ lit "-" ++ p ++ w' ++ lit "-" ++ p' ++ ds), (-1 * v), rest.
    rewrite <- !app_assoc. split; [reflexivity|]. split; [exact R|]. split; [|split].
    + exists w, (lit "-"), (w' ++ lit "-" ++ p' ++ ds). split; [reflexivity|]. split; [exact W|].
      split; [exact sign_minus|]. exists w', (lit "-"), (-1), p', ds, v.
      split; [reflexivity|]. split; [exact W'|]. split; [exact sign_minus|]. auto.
    + intros c C (d & D). exact (N c d C D).
    + change (2 ^ 63) with 9223372036854775808 in L. unfold LONG_MIN. lia.
Qed.

Lemma min_case_chain s : min_case s -> chain s = UB.
Proof.
  intros (p & b & t & u & rest & -> & R & P & N & L).
  rewrite (chain_prefixed p b t (-1) u rest R P N).
  - unfold long_op. replace (in_long (-1 * clamp_long u)) with false; [reflexivity|]. symmetry.
    destruct (in_long (-1 * clamp_long u)) eqn:E; [|reflexivity]. apply in_long_iff in E. revert E.
    unfold clamp_long, LONG_MIN, LONG_MAX in *.
    destruct (u <? -9223372036854775808) eqn:A, (9223372036854775807 <? u) eqn:B; lia.
  - intros ->. unfold LONG_MIN in L. lia.
Qed.

Lemma scan_UB s : scan_int s = UB <-> negated_min s.
Proof.
  rewrite <- min_case_negated. split.
  - intros H. pose proof (scan_sound s) as S. rewrite H in S. exact S.
  - intros M. rewrite scan_chain, (min_case_chain s M). reflexivity.
Qed.

Lemma int_not_negated s n : int_text s n -> is_int n -> ~ negated_min s.
Proof.
  intros H R M. apply min_case_negated, min_case_chain in M.
  apply with_unit_iff in H. destruct H as (t & v & e & m & -> & N & U & ->).
  pose proof U as (u0 & w0 & _ & Un & _). apply unit_cases in Un.
  apply number_inv in N. destruct N as [I|(p & b & z & u & Rx & P & ->)].
  - rewrite (chain_dec t v e m I U) in M. discriminate M.
  - destruct (tail_no_digit e m b (radix_base _ _ Rx) U) as [Nd Xh].
    rewrite (chain_prefixed p b t z u e Rx P Nd (fun _ => Xh)) in M.
    pose proof P as (w & sg & t' & _ & _ & Sg & _). apply sign_val in Sg.
    rewrite long_op_ok in M; [discriminate M|exact Sg|].
    intros ->. unfold is_int, LONG_MIN in *. destruct Un as [->|[->|[->| ->]]]; lia.
Qed.

Lemma scan_stored s n : scan_int s = Val (Stored n) <-> int_text s n /\ is_int n.
Proof.
  split.
  - intros H. pose proof (scan_sound s) as S. rewrite H in S. exact S.
  - intros [T R]. pose proof (int_not_negated s n T R) as M. rewrite <- min_case_negated in M.
    rewrite (scan_denoted s n T M). unfold is_int in R.
    replace ((INT_MIN <=? n) && (n <=? INT_MAX)) with true by (unfold INT_MIN, INT_MAX; lia). reflexivity.
Qed.

Lemma scan_overflow s :
  scan_int s = Val (Failed ARG_ERR_OVERFLOW) <-> (exists n, int_text s n /\ ~ is_int n) /\ ~ negated_min s.
Proof.
  split.
  - intros H. split.
    + pose proof (scan_sound s) as S. rewrite H in S. destruct S as [(_ & n & S)|S]; [|discriminate S].
      exists n. exact S.
    + rewrite <- scan_UB. rewrite H. discriminate.
  - intros [(n & T & R) M]. rewrite <- min_case_negated in M. rewrite (scan_denoted s n T M).
    unfold is_int in R. 
    replace ((INT_MIN <=? n) && (n <=? INT_MAX)) with false by (unfold INT_MIN, INT_MAX; lia). reflexivity.
Qed.

Lemma scan_bad s :
  scan_int s = Val (Failed ARG_ERR_BADINT) <-> (forall n, ~ int_text s n) /\ ~ negated_min s.
Proof.
  split.
  - intros H. split; [|rewrite <- scan_UB, H; discriminate].
    intros n T. destruct (Z_le_dec INT_MIN n) as [A|A], (Z_le_dec n INT_MAX) as [B|B].
    1:{ assert (scan_int s = Val (Stored n)) as E by (apply scan_stored; split; [exact T|split; assumption]). congruence. }
    all: assert (scan_int s = Val (Failed ARG_ERR_OVERFLOW)) as E
        by (apply scan_overflow; split; [exists n; split; [exact T|unfold is_int, INT_MIN, INT_MAX in *; lia]|rewrite <- scan_UB, H; discriminate]);
      rewrite H in E; discriminate E.
  - intros [N M]. pose proof (scan_sound s) as S. destruct (scan_int s) as [[n|c]|].
    + destruct (N n (proj1 S)).
    + destruct S as [(_ & n & T & _)| ->]; [destruct (N n T)|reflexivity].
    + apply min_case_negated in S. tauto.
Qed.

(** Every result is one of these. *)
Lemma scan_cases s :
  scan_int s = UB \/ (exists n, scan_int s = Val (Stored n)) \/
  scan_int s = Val (Failed ARG_ERR_OVERFLOW) \/ scan_int s = Val (Failed ARG_ERR_BADINT).
Proof.
  pose proof (scan_sound s) as S. destruct (scan_int s) as [[n|c]|]; eauto.
  destruct S as [(-> & _)| ->]; auto.
Qed.

Lemma plain_is_number t v : plain_number t v -> number t v.
Proof.
  destruct 1 as [w sg s ds v W S N|w sg s p b ds v W S R N].
  - constructor; assumption.
  - pose proof (number_radix w sg s p b [] [] 1 [] ds v W S R) as H. cbn [app] in H. rewrite Z.mul_1_l in H.
    apply H; auto; constructor.
Qed.

Lemma plain_is_int s n : plain_int s n -> int_text s n.
Proof. intros (t & v & u & m & w & -> & N & H). exists t, v, u, m, w. split; [reflexivity|]. split; [apply plain_is_number, N|exact H]. Qed.

(** ** The documented format *)
Lemma plain_inv t v : plain_number t v ->
  exists w sg s r, t = w ++ sg ++ r /\ blank w /\ sign sg s /\ ~ In "-"%char r /\
    (inner 10 t v \/ exists p b u, radix p b /\ prefixed p b t s u /\ 0 <= u /\ v = s * u).
Proof.
  assert (forall b ds x, base_ok b -> numeral b ds x -> ~ In "-"%char ds) as ND.
  { intros b ds x B N. apply numeral_vals in N. destruct N as (vs & F & _).
    induction F as [|c d ds vs D F IH]; [intros []|]. intros [->|I]; [|exact (IH I)].
    destruct (digit_no_space b "-"%char d B D) as (_ & _ & Q & _). congruence. }
  destruct 1 as [w sg s ds v W S N|w sg s p b ds v W S R N].
  - exists w, sg, s, ds. split; [reflexivity|]. split; [exact W|]. split; [exact S|].
    split; [apply (ND 10 ds v); [unfold base_ok; auto|exact N]|]. left.
    exists w, sg, s, [], ds, v. cbn [app]. auto 10.
  - exists w, sg, s, (p ++ ds). split; [reflexivity|]. split; [exact W|]. split; [exact S|]. split.
    + rewrite in_app_iff. intros [I|I].
      * destruct R; cbn in I; repeat (destruct I as [I|I]; [discriminate I|]); destruct I.
      * exact (ND b ds v (radix_base _ _ R) N I).
    + right. exists p, b, v. split; [exact R|]. split.
      * exists w, sg, ds. split; [reflexivity|]. split; [exact W|]. split; [exact S|].
        exists [], [], 1, [], ds, v. cbn [app]. rewrite Z.mul_1_l. repeat split; auto; constructor.
      * split; [|reflexivity]. apply (numeral_nonneg b ds); [destruct R; lia|exact N].
Qed.

Lemma plain_not_negated s n : plain_int s n -> ~ negated_min s.
Proof.
  intros H M. apply min_case_negated, min_case_chain in M.
  apply with_unit_iff in H. destruct H as (t & v & e & m & -> & N & U & ->).
  destruct (plain_inv t v N) as (w & sg & z & r & _ & _ & Sg & _ & [I|(p & b & u & R & P & V & ->)]).
  - rewrite (chain_dec t v e m I U) in M. discriminate M.
  - destruct (tail_no_digit e m b (radix_base _ _ R) U) as [Nd Xh].
    rewrite (chain_prefixed p b t z u e R P Nd (fun _ => Xh)) in M.
    rewrite long_op_ok in M; [discriminate M|exact (sign_val _ _ Sg)|]. unfold LONG_MIN. lia.
Qed.

Lemma plain_scan s n : plain_int s n ->
  (is_int n -> scan_int s = Val (Stored n)) /\
  (~ is_int n -> scan_int s = Val (Failed ARG_ERR_OVERFLOW)).
Proof.
  intros H. pose proof (plain_is_int s n H) as T. split; intros R.
  - apply scan_stored. auto.
  - apply scan_overflow. split; [exists n; auto|apply (plain_not_negated s n H)].
Qed.

Lemma unit_no_minus u m : unit_text u m -> ~ In "-"%char u.
Proof.
  destruct 1 as [|u I|u I|u I]; [intros []|..];
    cbn in I; repeat (destruct I as [<-|I]; [vm_compute; intuition discriminate|]); destruct I.
Qed.

Lemma blank_no_minus w : blank w -> ~ In "-"%char w.
Proof.
  induction 1 as [|c w C W IH]; [intros []|]. intros [->|I]; [|exact (IH I)].
  cbn in C. intuition discriminate.
Qed.

Lemma plain_zero_head r n : plain_int ("0"%char :: r) n -> ~ In "-"%char ("0"%char :: r).
Proof.
  intros (t & v & u & m & w & E & N & U & W & _) I. rewrite E in I.
  destruct (plain_inv t v N) as (w' & sg & z & r' & -> & W' & Sg & M & _).
  assert (w' = []) as ->.
  { destruct W' as [|c w' C W']; [reflexivity|]. cbn in E. injection E as <- _. cbn in C. intuition discriminate. }
  assert (sg = []) as -> by (destruct Sg; cbn in E; congruence || reflexivity).
  cbn [app] in I. rewrite !in_app_iff in I.
  pose proof (unit_no_minus u m U). pose proof (blank_no_minus w W). tauto.
Qed.

Lemma shown_scan n : is_int n -> scan_int (decimal n) = Val (Stored n).
Proof. intros R. apply (plain_scan (decimal n) n); [apply DecimalFacts.decimal_plain|exact R]. Qed.

Lemma with_unit_decimal n u m w :
  unit_text u m -> blank w -> plain_int (decimal n ++ u ++ w) (n * m).
Proof.
  intros U W. destruct (DecimalFacts.decimal_signed n) as (sg & z & ds & v & E & S & N & ->).
  exists (sg ++ ds), (z * v), u, m, w. rewrite E. split; [reflexivity|].
  split; [|auto]. apply (plain_dec [] sg z ds v); [constructor| |exact N].
  destruct S as [[-> ->]|[-> ->]]; constructor.
Qed.
