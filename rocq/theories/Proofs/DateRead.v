(** arg_strptime reads the parts of its format. *)
From Coq Require Import ZArith NArith Bool List Ascii String Lia.
From Verif.Base Require Import CInt CStr CMem Tm.
From Verif.Model Require Import ArgInt ArgDate.
From Verif.Spec Require Import DateSpec.
Import ListNotations.
Open Scope list_scope.
Open Scope Z_scope.

(** ** Reading, as a function *)
Definition num (lo hi : Z) (bp : str) : option (Z * str) := match conv_num bp lo hi with Val r => r | UB => None end.
Definition by_num (lo hi : Z) (k : Z -> tm) (bp : str) : option (str * tm) :=
  match num lo hi bp with Some (v, bp) => Some (bp, k v) | None => None end.
Definition by_name (full ab : list str) (k : Z -> tm) (bp : str) : option (str * tm) :=
  match find_name full ab 0 bp with Some (i, len) => Some (skipn len bp, k i) | None => None end.
Definition read_part (p : part) (bp : str) (t : tm) : option (str * tm) :=
  match p with
  | Space => Some (skip_space bp, t)
  | Same c => match bp with d :: bp => if aeqb c d then Some (bp, t) else None | [] => None end
  | Year => by_num 0 9999 (fun v => set_year (v - 1900) t) bp
  | YearOf100 => by_num 0 99 (fun v => set_year (if v <=? 68 then v + 2000 - 1900 else v + 1900 - 1900) t) bp
  | Century => None
  | Month => by_num 1 12 (fun v => set_mon (v - 1) t) bp
  | Day => by_num 1 31 (fun v => set_mday v t) bp
  | DayOfYear => by_num 1 366 (fun v => set_yday (v - 1) t) bp
  | DayOfWeek => by_num 0 6 (fun v => set_wday v t) bp
  | Week => by_num 0 53 (fun v => t) bp
  | Hour => by_num 0 23 (fun v => set_hour v t) bp
  | Hour12 => by_num 1 12 (fun v => set_hour (if v =? 12 then 0 else v) t) bp
  | Minute => by_num 0 59 (fun v => set_min v t) bp
  | Second => by_num 0 61 (fun v => set_sec v t) bp
  | MonthName => by_name mon abmon (fun i => set_mon i t) bp
  | DayName => by_name day abday (fun i => set_wday i t) bp
  | Half => if 11 <? tm_hour t then None
            else if strcaseeq am bp then Some (skipn 2 bp, t)
            else if strcaseeq pm_ bp then Some (skipn 2 bp, set_hour (tm_hour t + 12) t) else None
  end.
Definition obind {A B} (o : option A) (k : A -> option B) : option B := match o with Some a => k a | None => None end.
Fixpoint read_parts (ps : list part) (bp : str) (t : tm) : option (str * tm) :=
  match ps with
  | [] => Some (bp, t)
  | p :: ps => obind (read_part p bp t) (fun '(bp, t) => read_parts ps bp t)
  end.
Lemma read_app ps qs bp t : read_parts (ps ++ qs) bp t = obind (read_parts ps bp t) (fun '(bp, t) => read_parts qs bp t).
Proof.
  revert bp t. induction ps as [|p ps IH]; intros bp t; [reflexivity|]. cbn [app read_parts]. destruct (read_part p bp t) as [[bp1 t1]|]; [|reflexivity].
  cbn [obind]. apply IH.
Qed.

(** ** Numbers *)
Lemma digit_spec c : is_digit c = true <-> digit c.
Proof. unfold is_digit, digit. rewrite andb_true_iff, !N.leb_le. lia. Qed.
Lemma cur_digit s : is_digit (cur s) = true <-> starts digit s.
Proof. destruct s as [|c s]; cbn; [split; [discriminate|intros []]|apply digit_spec]. Qed.
Definition val_from (v : Z) (ds : str) : Z := fold_left (fun v d => v * 10 + (Z.of_N (code d) - 48)) ds v.
Lemma minus_0_range c : digit c -> 0 <= minus_0 c <= 9.
Proof. unfold digit, minus_0. lia. Qed.
Lemma val_mono v ds : Forall digit ds -> 0 <= v -> v <= val_from v ds.
Proof.
  revert v. induction ds as [|d ds IH]; intros v F H; [cbn; lia|]. inversion F as [|? ? F1 F2]; subst. cbn [val_from fold_left].
  assert (R := minus_0_range _ F1). unfold minus_0 in R. assert (Q := IH (v * 10 + (Z.of_N (code d) - 48)) F2 ltac:(lia)). unfold val_from in Q. lia.
Qed.
Lemma val_big v d ds : Forall digit (d :: ds) -> 0 <= v -> v * 10 <= val_from v (d :: ds).
Proof.
  intros F H. inversion F as [|? ? F1 F2]; subst. assert (R := minus_0_range _ F1). unfold minus_0 in R.
  assert (Q := val_mono (v * 10 + (Z.of_N (code d) - 48)) ds F2 ltac:(lia)). unfold val_from in *. cbn [fold_left]. lia.
Qed.
(** How many digits [rulim] allows. *)
Definition more (rulim : Z) : nat := if rulim =? 0 then 0 else width rulim.
Lemma more_quot rulim : 0 < rulim <= 9999 -> more rulim = S (more (Z.quot rulim 10)).
Proof.
  intros H. rewrite Z.quot_div_nonneg by lia. unfold more, width. destruct (Z.eqb_spec rulim 0); [lia|].
  assert (Q1 := Z.div_mod rulim 10 ltac:(lia)). assert (Q2 := Z.mod_pos_bound rulim 10 ltac:(lia)). set (q := rulim / 10) in *.
  destruct (Z.eqb_spec q 0), (Z.leb_spec rulim 9), (Z.leb_spec rulim 99), (Z.leb_spec rulim 999), (Z.leb_spec q 9), (Z.leb_spec q 99), (Z.leb_spec q 999);
    try lia; reflexivity.
Qed.
Lemma in_int_op z : INT_MIN <= z <= INT_MAX -> int_op z = Val z.
Proof. intros H. unfold int_op. destruct (in_int z) eqn:E; [reflexivity|]. exfalso. unfold in_int in E. rewrite andb_false_iff, !Z.leb_gt in E. lia. Qed.
Lemma conv_loop_ok ulim (Hu : 0 < ulim <= 9999) : forall buf v rulim, digit (cur buf) -> buf <> [] -> 0 <= v -> v * 10 <= ulim -> 0 < rulim <= 9999 ->
  exists ds rest, conv_loop buf v rulim ulim = Val (val_from v ds, rest) /\ buf = ds ++ rest /\ ds <> [] /\ Forall digit ds /\
    (List.length ds <= more rulim)%nat /\ (List.length ds = more rulim \/ ulim < val_from v ds * 10 \/ ~ starts digit rest) /\
    (forall ds' rest', buf = ds' ++ rest' -> ds' <> [] -> Forall digit ds' -> (List.length ds' <= more rulim)%nat -> val_from v ds' <= ulim ->
      (List.length ds' = more rulim \/ ulim < val_from v ds' * 10 \/ ~ starts digit rest') -> ds' = ds).
Proof.
  induction buf as [|c buf IH]; intros v rulim Hc _ Hv Hv10 Hr; [|clear -IH Hu Hc Hv Hv10 Hr].
  { cbn in Hc. unfold digit, NUL in Hc. vm_compute in Hc. destruct Hc as [Hc _]. contradiction Hc. reflexivity. }
  cbn [cur] in Hc. assert (R := minus_0_range _ Hc). cbn [conv_loop].
  assert (B : INT_MIN = -2147483648 /\ INT_MAX = 2147483647) by (split; reflexivity). destruct B as [B1 B2].
  rewrite in_int_op by lia. cbn [cbind]. rewrite in_int_op by lia. cbn [cbind]. cbv zeta. rewrite in_int_op by lia. cbn [cbind].
  set (v1 := v * 10 + minus_0 c). assert (M := more_quot rulim Hr).
  assert (F1 : forall ds, val_from v (c :: ds) = val_from v1 ds) by reflexivity.
  destruct ((v1 * 10 <=? ulim) && negb (Z.quot rulim 10 =? 0) && is_digit (cur buf)) eqn:E.
  - rewrite !andb_true_iff, negb_true_iff, Z.leb_le, Z.eqb_neq in E. destruct E as [[E1 E2] E3].
    assert (Q : 0 <= Z.quot rulim 10 <= 9999). { rewrite Z.quot_div_nonneg by lia. split; [apply Z.div_pos; lia|]. assert (rulim / 10 <= rulim) by (apply Z.div_le_upper_bound; lia). lia. }
    destruct buf as [|c2 buf]; [discriminate E3|].
    destruct (IH v1 (Z.quot rulim 10)) as (ds & rest & -> & Eb & N & F & L & Mx & U); [apply digit_spec; exact E3|discriminate|subst v1; lia|exact E1|lia|].
    exists (c :: ds), rest. rewrite M, F1. cbn [List.length app]. split; [reflexivity|]. split; [rewrite Eb; reflexivity|]. split; [discriminate|].
    split; [constructor; assumption|]. split; [lia|]. split; [destruct Mx as [Mx|Mx]; [left; lia|right; exact Mx]|].
    intros [|c' ds'] rest' E Nn F' L' V' Mx'; [contradiction|]. injection E as <- E. rewrite F1 in *. cbn [List.length] in *.
    f_equal. inversion F' as [|? ? _ F2']; subst.
    destruct ds' as [|d' ds'].
    + exfalso. cbn [List.length val_from fold_left] in Mx'. change (fold_left _ [] v1) with v1 in Mx'. cbn [app] in E. destruct Mx' as [Mx'|[Mx'|Mx']].
      * assert (more (Z.quot rulim 10) <> 0%nat); [|lia]. unfold more. destruct (Z.eqb_spec (Z.quot rulim 10) 0); [contradiction|]. unfold width. repeat destruct (_ <=? _); discriminate.
      * lia.
      * apply Mx'. rewrite <- E. apply cur_digit. exact E3.
    + apply (U (d' :: ds') rest' E); [discriminate|exact F2'|cbn [List.length] in *; lia|exact V'|]. cbn [List.length] in *. destruct Mx' as [Mx'|Mx']; [left; lia|right; exact Mx'].
  - exists [c], buf. cbn [List.length app]. rewrite F1. change (val_from v1 []) with v1. rewrite M. split; [reflexivity|]. split; [reflexivity|]. split; [discriminate|].
    split; [constructor; [exact Hc|constructor]|]. split; [lia|].
    assert (Mx : 1%nat = S (more (Z.quot rulim 10)) \/ ulim < v1 * 10 \/ ~ starts digit buf).
    { rewrite !andb_false_iff, negb_false_iff, Z.leb_gt, Z.eqb_eq in E. destruct E as [[E|E]|E]; [right; left; exact E| |].
      - left. rewrite E. reflexivity.
      - right. right. rewrite <- cur_digit. congruence. }
    split; [exact Mx|]. intros [|c' ds'] rest' E' Nn F' L' V' Mx'; [contradiction|]. injection E' as <- E'. rewrite F1 in *. cbn [List.length] in *.
    f_equal. inversion F' as [|? ? _ F2']; subst. destruct ds' as [|d' ds']; [reflexivity|]. exfalso. destruct Mx as [Mx|[Mx|Mx]].
    + cbn [List.length] in L'. lia.
    + assert (Q := val_big v1 d' ds' F2' ltac:(subst v1; lia)). lia.
    + apply Mx. cbn [app starts]. inversion F2'; assumption.
Qed.
Lemma conv_num_ok lo hi bp : 0 < hi <= 9999 -> exists r, conv_num bp lo hi = Val r /\
  forall v rest, r = Some (v, rest) <-> exists ds, bp = ds ++ rest /\ number lo hi ds rest v.
Proof.
  intros H. unfold conv_num. destruct (is_digit (cur bp)) eqn:D; cbn [negb].
  - assert (N : bp <> []) by (intros ->; discriminate D). apply digit_spec in D.
    destruct (conv_loop_ok hi H bp 0 hi D N ltac:(lia) ltac:(lia) H) as (ds & rest & -> & E & N' & F & L & Mx & U). cbn [cbind].
    assert (W : more hi = width hi) by (unfold more; destruct (Z.eqb_spec hi 0); [lia|reflexivity]). rewrite W in *.
    change (val_from 0) with value in *. eexists. split; [reflexivity|]. intros v rest'. split.
    + destruct ((value ds <? lo) || (hi <? value ds)) eqn:B; [discriminate|]. intros X. injection X as <- <-.
      apply orb_false_iff in B. rewrite !Z.ltb_ge in B. exists ds. split; [exact E|]. repeat split; try tauto; lia.
    + intros (ds' & E' & N1 & F' & V & R & L' & Mx'). subst v.
      assert (ds' = ds) as -> by (apply (U ds' rest'); auto; lia). rewrite E in E'. apply app_inv_head in E' as <-.
      destruct ((value ds <? lo) || (hi <? value ds)) eqn:B; [|reflexivity]. apply orb_true_iff in B. rewrite !Z.ltb_lt in B. lia.
  - exists None. split; [reflexivity|]. intros v rest. split; [discriminate|]. intros (ds & -> & N & F & _). exfalso.
    destruct ds as [|d ds]; [contradiction|]. cbn in D. inversion F as [|? ? F1 _]; subst. apply digit_spec in F1. congruence.
Qed.
Lemma num_val lo hi bp : 0 < hi <= 9999 -> conv_num bp lo hi = Val (num lo hi bp).
Proof. intros H. unfold num. destruct (conv_num_ok lo hi bp H) as (r & -> & _). reflexivity. Qed.
Lemma num_spec lo hi bp v rest : 0 < hi <= 9999 -> num lo hi bp = Some (v, rest) <-> exists ds, bp = ds ++ rest /\ number lo hi ds rest v.
Proof. intros H. unfold num. destruct (conv_num_ok lo hi bp H) as (r & -> & S1). apply S1. Qed.
