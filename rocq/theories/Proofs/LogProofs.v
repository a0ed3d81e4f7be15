(** What log_write gives to write(2). *)
From Coq Require Import ZArith NArith Bool List Ascii String Arith Lia Decimal DecimalString.
From Verif.Base Require Import CInt CStr CMem.
From Verif.Model Require Import Messages Logger.
From Verif.Spec Require Import IntText LogSpec.
From Verif.Spec Require Import DstrSpec.
From Verif.Proofs Require DecimalFacts OutputProofs PythonProofs.
From Verif.Proofs Require Import DstrProofs.
Import ListNotations.
Open Scope list_scope.
Open Scope nat_scope.

(** ** Length of a line number *)

Lemma fold_ge l : Forall (fun x => 0 <= x)%Z l -> forall a, (0 <= a)%Z ->
  (a * 10 ^ Z.of_nat (List.length l) <= fold_left (fun a x => a * 10 + x) l a)%Z.
Proof.
  induction 1 as [|x l X F IH]; intros a A; cbn [fold_left List.length].
  - cbn. lia.
  - etransitivity; [|apply IH; lia]. rewrite Nat2Z.inj_succ, Z.pow_succ_r by lia.
    pose proof (Z.pow_nonneg 10 (Z.of_nat (List.length l))). nia.
Qed.

Lemma vals_nonneg d : Forall (fun x => 0 <= x)%Z (DecimalFacts.vals d).
Proof. induction d; cbn; constructor; auto; lia. Qed.

Lemma vals_length d : List.length (DecimalFacts.vals d) = List.length (DecimalFacts.chars d).
Proof. symmetry. pose proof (DecimalFacts.chars_vals d) as F. induction F; cbn; auto. Qed.

Lemma pos_digits p : (10 ^ (Z.of_nat (List.length (DecimalFacts.chars (Pos.to_uint p))) - 1) <= Z.pos p)%Z.
Proof.
  assert (Z.of_uint (Pos.to_uint p) = Z.pos p) as V.
  { pose proof (DecimalZ.of_to (Z.pos p)) as X. exact X. }
  rewrite <- V, DecimalFacts.of_uint_vals, <- vals_length.
  pose proof (OutputProofs.pos_uint_head p) as H. pose proof (DecimalFacts.pos_to_uint_nonnil p) as Nn.
  destruct (Pos.to_uint p) as [|u|u|u|u|u|u|u|u|u|u]; try contradiction; [exfalso; apply (H u); reflexivity|..];
    cbn [DecimalFacts.vals fold_left List.length];
    match goal with |- (_ <= fold_left _ _ ?a)%Z =>
      etransitivity; [|apply (fold_ge _ (vals_nonneg u) a); lia] end;
    replace (Z.of_nat (S (List.length (DecimalFacts.vals u))) - 1)%Z with (Z.of_nat (List.length (DecimalFacts.vals u))) by lia;
    pose proof (Z.pow_nonneg 10 (Z.of_nat (List.length (DecimalFacts.vals u)))); nia.
Qed.

Lemma pos_chars p : (Z.pos p <= 2147483648)%Z -> List.length (DecimalFacts.chars (Pos.to_uint p)) <= 10.
Proof.
  intros L. destruct (le_lt_dec (List.length (DecimalFacts.chars (Pos.to_uint p))) 10) as [H|H]; [exact H|exfalso].
  pose proof (pos_digits p) as D.
  assert (10 ^ 10 <= 10 ^ (Z.of_nat (List.length (DecimalFacts.chars (Pos.to_uint p))) - 1))%Z as X by (apply Z.pow_le_mono_r; lia).
  change (10 ^ 10)%Z with 10000000000%Z in X. lia.
Qed.

Lemma decimal_length n : is_int n -> List.length (decimal n) <= 11.
Proof.
  unfold is_int, decimal. intros I. destruct n as [|p|p]; cbn [Z.to_int NilZero.string_of_int].
  - cbn. lia.
  - rewrite DecimalFacts.nilzero_uint by apply DecimalFacts.pos_to_uint_nonnil.
    pose proof (pos_chars p). lia.
  - change (lit (String "-" (NilZero.string_of_uint (Pos.to_uint p))))
      with ("-"%char :: lit (NilZero.string_of_uint (Pos.to_uint p))).
    rewrite DecimalFacts.nilzero_uint by apply DecimalFacts.pos_to_uint_nonnil.
    pose proof (pos_chars p). cbn [List.length]. lia.
Qed.

Lemma decimal_no_nul n : no_nul (decimal n).
Proof. exact (PythonProofs.fmt_d_c n). Qed.

(** ** The buffers *)

Definition returned (text : str) : Z :=
  if (Z.of_nat (List.length text) <=? INT_MAX)%Z then Z.of_nat (List.length text) else (-1)%Z.

Lemma snprintf_val b room text : S room <= List.length b ->
  exists r, snprintf b (S room) text = Val (terminated (firstn room text) ++ r, returned text) /\
    List.length (terminated (firstn room text) ++ r) = List.length b.
Proof.
  intros L. unfold snprintf.
  assert (List.length (terminated (firstn room text)) <= List.length b) as F.
  { rewrite terminated_length, firstn_length. lia. }
  rewrite store_val by (cbn; exact F). cbn [firstn app cbind].
  eexists. split; [reflexivity|]. rewrite app_length, skipn_length. cbn [Nat.add]. lia.
Qed.

Lemma read_terminated t r n : n <= List.length t -> read_bytes (terminated t ++ r) n = Val (firstn n t).
Proof.
  revert n. induction t as [|c t IH]; intros [|n] L; cbn in L; try lia; cbn; try reflexivity.
  unfold terminated, bytes in IH. rewrite (IH n) by lia. reflexivity.
Qed.

Lemma read_past t r : read_bytes (terminated t ++ r) (S (List.length t)) = Val (t ++ [NUL]).
Proof.
  induction t as [|c t IH]; [reflexivity|].
  change (cbind (read_bytes (terminated t ++ r) (S (List.length t))) (fun s => Val (c :: s)) = Val ((c :: t) ++ [NUL])).
  rewrite IH. reflexivity.
Qed.

Definition B : nat := N.to_nat 8191.
Lemma size_S : log_buffer_size = S B.
Proof. reflexivity. Qed.
Lemma B_eq : N.of_nat B = 8191%N.
Proof. unfold B. apply N2Nat.id. Qed.

Lemma terminated_cstr t r : cstr (terminated t ++ r) = Val (upto_nul t).
Proof. unfold terminated. rewrite <- app_assoc. apply cstr_upto. Qed.

Lemma level_note_of z note : level z note -> level_note z = Val note.
Proof. intros []; reflexivity. Qed.

(** The line that is formatted: the text is cut to the size of its buffer. *)
Definition cut_line (note date source : str) (line : Z) (text : str) : str :=
  log_line note date source line (firstn B (upto_nul text)).

Lemma log_data_val s lv note source line text date :
  level lv note -> is_int line -> no_nul source -> no_nul date -> List.length date <= 98 -> sized s ->
  exists s' r, sized s' /\ b_buffer s' = terminated (firstn B (cut_line note date source line text)) ++ r /\
    log_data s (mkCall lv source line text (Some date)) =
    cbind (write_bytes (b_buffer s') (returned (cut_line note date source line text))) (fun data => Val (data, s')).
Proof.
  intros Lv Li Ns Nd Ld (S1 & S2 & S3 & S4). unfold log_data.
  cbn [c_level c_source c_line c_text c_date strftime].
  destruct (Nat.ltb_spec (List.length date) 99) as [_|H]; [|lia].
  rewrite store_val by (rewrite terminated_length; cbn [Nat.add]; lia). cbn [firstn app cbind Nat.add].
  pose proof (decimal_length line Li) as Dl.
  destruct (snprintf_val (b_line_str s) 18 (fmt_d line)) as (r1 & E1 & L1); [lia|]. rewrite E1. cbn [cbind].
  assert (firstn 18 (fmt_d line) = decimal line) as F1.
  { apply firstn_all2. change (fmt_d line) with (decimal line). lia. }
  rewrite F1 in *.
  rewrite size_S.
  assert (S B = N.to_nat 8192) as SB by reflexivity.
  destruct (snprintf_val (b_log_buffer s) B text) as (r2 & E2 & L2); [rewrite S2, SB; lia|]. rewrite E2. cbn [cbind].
  rewrite (level_note_of _ _ Lv). cbn [cbind].
  do 3 (rewrite ?app_nil_l, terminated_cstr; cbn [cbind]). rewrite (upto_id date Nd), (upto_id _ (decimal_no_nul line)).
  rewrite upto_firstn.
  change (note ++ lit " [" ++ date ++ lit "] [" ++ source ++ lit ":" ++ decimal line ++ lit "]" ++ firstn B (upto_nul text) ++ ["010"%char])
    with (cut_line note date source line text).
  destruct (snprintf_val (b_buffer s) B (cut_line note date source line text)) as (r3 & E3 & L3); [rewrite S1, SB; lia|].
  rewrite E3. cbn [cbind].
  exists (mkBuf (terminated (firstn B (cut_line note date source line text)) ++ r3) (terminated (firstn B text) ++ r2)
    (terminated date ++ skipn (List.length (terminated date)) (b_datetime s)) (terminated (decimal line) ++ r1)), r3.
  cbn [b_buffer b_log_buffer b_datetime b_line_str]. split; [|split; [reflexivity|]].
  - unfold sized. cbn [b_buffer b_log_buffer b_datetime b_line_str].
    repeat split; [rewrite L3; exact S1|rewrite L2; exact S2| |rewrite L1; exact S4].
    rewrite app_length, skipn_length, terminated_length. lia.
  - reflexivity.
Qed.

Lemma cut_length note date source line text :
  let full := log_line note date source line (upto_nul text) in
  let cut := cut_line note date source line text in
  (List.length full <= S B -> cut = full) /\ (S B < List.length full -> S B < List.length cut).
Proof.
  intros full cut. unfold full, cut, cut_line, log_line. rewrite !app_length, !firstn_length. cbn [List.length].
  destruct (le_lt_dec (List.length (upto_nul text)) B) as [L|L].
  - rewrite firstn_all2 by exact L. rewrite Nat.min_r by exact L. split; [reflexivity|auto].
  - rewrite Nat.min_l by lia. split; [intros F; exfalso|intros _]; cbn [lit list_ascii_of_string List.length] in *; lia.
Qed.

Lemma write_cut s' r full cut : b_buffer s' = terminated (firstn B cut) ++ r -> List.length (b_buffer s') = N.to_nat 8192 ->
  (List.length full <= S B -> cut = full) -> (S B < List.length full -> S B < List.length cut) ->
  (List.length full <= B -> write_bytes (b_buffer s') (returned cut) = Val full) /\
  (List.length full = S B -> write_bytes (b_buffer s') (returned cut) = Val (firstn B full ++ [NUL])) /\
  (S B < List.length full -> write_bytes (b_buffer s') (returned cut) = UB).
Proof.
  intros E L C1 C2. pose proof B_eq as BE. change (N.to_nat 8192) with (S B) in L. unfold write_bytes. rewrite L.
  unfold returned, INT_MAX. split; [|split].
  - intros F. rewrite C1 by lia. destruct (Z.leb_spec (Z.of_nat (List.length full)) 2147483647) as [_|H]; [|lia].
    destruct (Z.ltb_spec (Z.of_nat (List.length full)) 0) as [H|_]; [lia|].
    destruct (Z.ltb_spec (Z.of_nat (S B)) (Z.of_nat (List.length full))) as [H|_]; [lia|].
    rewrite E, Nat2Z.id, C1 by lia. rewrite firstn_all2 by exact F. rewrite read_terminated by lia.
    rewrite firstn_all. reflexivity.
  - intros F. rewrite C1 by lia. destruct (Z.leb_spec (Z.of_nat (List.length full)) 2147483647) as [_|H]; [|lia].
    destruct (Z.ltb_spec (Z.of_nat (List.length full)) 0) as [H|_]; [lia|].
    destruct (Z.ltb_spec (Z.of_nat (S B)) (Z.of_nat (List.length full))) as [H|_]; [lia|].
    rewrite E, Nat2Z.id, C1 by lia.
    assert (List.length full = S (List.length (firstn B full))) as FL by (rewrite firstn_length; lia).
    rewrite FL. apply read_past.
  - intros F. apply C2 in F. destruct (Z.leb_spec (Z.of_nat (List.length cut)) 2147483647) as [G|H]; [|reflexivity].
    destruct (Z.ltb_spec (Z.of_nat (List.length cut)) 0) as [H|_]; [lia|].
    destruct (Z.ltb_spec (Z.of_nat (S B)) (Z.of_nat (List.length cut))) as [_|H]; [reflexivity|lia].
Qed.

Lemma data_cases s c l : sized s -> asks_line c l ->
  exists s', sized s' /\
  ((N.of_nat (List.length l) < 8192)%N -> log_data s c = Val (l, s')) /\
  ((N.of_nat (List.length l) = 8192)%N -> log_data s c = Val (firstn (N.to_nat 8191) l ++ [NUL], s')) /\
  ((8192 < N.of_nat (List.length l))%N -> log_data s c = UB).
Proof.
  intros Z [lv note source line text date Lv Li Ns Nd Ld].
  destruct (log_data_val s lv note source line text date Lv Li Ns Nd Ld Z) as (s' & r & Z' & Eb & E).
  exists s'. split; [exact Z'|]. rewrite E.
  destruct (cut_length note date source line text) as [C1 C2].
  destruct (write_cut s' r _ _ Eb (proj1 Z') C1 C2) as (W1 & W2 & W3).
  pose proof B_eq as BE. split; [|split]; intros H.
  - rewrite W1 by lia. reflexivity.
  - rewrite W2 by lia. reflexivity.
  - rewrite W3 by lia. reflexivity.
Qed.

Lemma data_line s c l : sized s -> asks_line c l -> (N.of_nat (List.length l) < 8192)%N ->
  exists s', sized s' /\ log_data s c = Val (l, s').
Proof. intros Z A L. destruct (data_cases s c l Z A) as (s' & Z' & D & _). eauto. Qed.

Lemma data_defined s c l : sized s -> asks_line c l -> log_data s c <> UB <-> (N.of_nat (List.length l) <= 8192)%N.
Proof.
  intros Z A. destruct (data_cases s c l Z A) as (s' & _ & D1 & D2 & D3). split.
  - intros N. apply N.nlt_ge. intros H. apply N, D3, H.
  - intros H. apply N.le_lteq in H. destruct H as [H|H]; [rewrite D1 by exact H|rewrite D2 by exact H]; discriminate.
Qed.

Lemma data_sized s c d s' l : asks_line c l -> sized s -> log_data s c = Val (d, s') -> sized s'.
Proof.
  intros A Z E. destruct (data_cases s c l Z A) as (s1 & Z1 & D1 & D2 & D3).
  destruct (N.lt_trichotomy (N.of_nat (List.length l)) 8192) as [H|[H|H]].
  - rewrite D1 in E by exact H. injection E as _ <-. exact Z1.
  - rewrite D2 in E by exact H. injection E as _ <-. exact Z1.
  - rewrite D3 in E by exact H. discriminate.
Qed.

Lemma fresh_sized : sized fresh_buffers.
Proof. unfold sized, fresh_buffers. cbn [b_buffer b_log_buffer b_datetime b_line_str]. rewrite !zeroed_length. repeat split. Qed.

(** ** The calls in the program *)

Lemma lit_no_nul s : forallb (fun c => negb (aeqb c NUL)) (lit s) = true -> no_nul (lit s).
Proof. intros F I. rewrite forallb_forall in F. apply F in I. discriminate I. Qed.

Lemma code_short code : In code logged_codes -> List.length (lit code) <= 20 /\ no_nul (lit code).
Proof.
  intros I. assert (forallb (fun s => (List.length (lit s) <=? 20) && forallb (fun c => negb (aeqb c NUL)) (lit s)) logged_codes = true) as F
    by reflexivity.
  rewrite forallb_forall in F. apply F in I. apply andb_prop in I as [I1 I2].
  split; [apply Nat.leb_le, I1|apply lit_no_nul, I2].
Qed.

Lemma fatal_length source line text date : is_int line -> List.length date <= 98 ->
  List.length (log_line (lit "FATAL") date source line text) <= 122 + List.length source + List.length text.
Proof.
  intros Li Ld. unfold log_line. rewrite !app_length. pose proof (decimal_length line Li).
  cbn [lit list_ascii_of_string List.length]. lia.
Qed.

Lemma run_call source line date code : is_int line -> no_nul source -> (N.of_nat (List.length source) <= 4096)%N ->
  no_nul date -> List.length date <= 98 -> In code logged_codes -> short_line (error_exit_call source line (Some date) code).
Proof.
  intros Li Ns Ls Nd Ld I. eexists. split; [constructor; auto; constructor|].
  destruct (code_short code I) as [L N]. pose proof (fatal_length source line (upto_nul (lit "Error: " ++ lit code)) date Li Ld) as F.
  pose proof (upto_le (lit "Error: " ++ lit code)) as U. rewrite app_length in U.
  change (List.length (lit "Error: ")) with 7 in U. lia.
Qed.

Lemma child_call source line date reason code : is_int line -> no_nul source -> (N.of_nat (List.length source) <= 4096)%N ->
  no_nul date -> List.length date <= 98 -> List.length reason <= 1000 -> In code logged_codes ->
  short_line (child_error_exit_call source line (Some date) reason code).
Proof.
  intros Li Ns Ls Nd Ld Lr I. eexists. split; [constructor; auto; constructor|].
  destruct (code_short code I) as [L N].
  set (t := lit "Error: System errno: " ++ reason ++ lit "; Internal errno: " ++ lit code).
  pose proof (fatal_length source line (upto_nul t) date Li Ld) as F.
  pose proof (upto_le t) as U. unfold t in U at 2. rewrite !app_length in U.
  change (List.length (lit "Error: System errno: ")) with 21 in U. change (List.length (lit "; Internal errno: ")) with 18 in U. lia.
Qed.
