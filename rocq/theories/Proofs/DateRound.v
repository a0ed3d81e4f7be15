(** A date as strftime writes it is read back. *)
From Coq Require Import ZArith NArith Bool List Ascii String Lia.
From Verif.Base Require Import CInt CStr CMem Tm.
From Verif.Spec Require Import DateSpec.
Import ListNotations.
Open Scope list_scope.
Open Scope Z_scope.

(** ** Numbers *)
Lemma figure_code v : code (figure v) = Z.to_N (48 + v mod 10).
Proof. unfold figure, code. apply N_ascii_embedding. assert (H := Z.mod_pos_bound v 10). lia. Qed.
Lemma figure_digit v : digit (figure v).
Proof. unfold digit. rewrite figure_code. assert (H := Z.mod_pos_bound v 10). lia. Qed.
Lemma figure_value v : Z.of_N (code (figure v)) - 48 = v mod 10.
Proof. rewrite figure_code. assert (H := Z.mod_pos_bound v 10). lia. Qed.
Lemma number_full lo hi ds rest v : ds <> [] -> Forall digit ds -> value ds = v -> lo <= v <= hi -> List.length ds = width hi -> number lo hi ds rest v.
Proof. intros. unfold number. repeat split; try assumption; try lia. Qed.
Lemma two_digits v : Forall digit (two v).
Proof. unfold two. repeat constructor; apply figure_digit. Qed.
Lemma one_number lo hi rest v : 0 <= v <= 9 -> lo <= v <= hi -> width hi = 1%nat -> number lo hi [figure v] rest v.
Proof.
  intros H1 H2 W. apply number_full; [discriminate|repeat constructor; apply figure_digit| |exact H2|symmetry; exact W].
  unfold value. cbn [fold_left]. rewrite figure_value, Z.mod_small by lia. lia.
Qed.
Lemma two_number lo hi rest v : 0 <= v <= 99 -> lo <= v <= hi -> width hi = 2%nat -> number lo hi (two v) rest v.
Proof.
  intros H1 H2 W. apply number_full; [discriminate|apply two_digits| |exact H2|symmetry; exact W].
  unfold value, two. cbn [fold_left]. rewrite !figure_value. rewrite (Z.mod_small (v / 10)).
  - assert (Q := Z.div_mod v 10). lia.
  - split; [apply Z.div_pos; lia|apply Z.div_lt_upper_bound; lia].
Qed.
Lemma three_number lo hi rest v : 0 <= v <= 999 -> lo <= v <= hi -> width hi = 3%nat -> number lo hi (figure (v / 100) :: two (v mod 100)) rest v.
Proof.
  intros H1 H2 W. apply number_full; [discriminate|constructor; [apply figure_digit|apply two_digits]| |exact H2|symmetry; exact W].
  unfold value, two. cbn [fold_left]. rewrite !figure_value. assert (B := Z.mod_pos_bound v 100 ltac:(lia)). assert (Q := Z.div_mod v 100 ltac:(lia)).
  assert (Q1 := Z.div_mod (v mod 100) 10 ltac:(lia)). rewrite (Z.mod_small (v / 100)), (Z.mod_small (v mod 100 / 10)).
  - lia.
  - split; [apply Z.div_pos; lia|apply Z.div_lt_upper_bound; lia].
  - split; [apply Z.div_pos; lia|apply Z.div_lt_upper_bound; lia].
Qed.
Lemma four_number lo hi rest v : 0 <= v <= 9999 -> lo <= v <= hi -> width hi = 4%nat -> number lo hi (two (v / 100) ++ two (v mod 100)) rest v.
Proof.
  intros H1 H2 W. apply number_full; [discriminate|apply Forall_app; split; apply two_digits| |exact H2|symmetry; exact W].
  unfold value, two. cbn [fold_left app]. rewrite !figure_value. assert (B := Z.mod_pos_bound v 100 ltac:(lia)). assert (Q := Z.div_mod v 100 ltac:(lia)).
  assert (B2 : 0 <= v / 100 < 100) by (split; [apply Z.div_pos; lia|apply Z.div_lt_upper_bound; lia]).
  assert (Q1 := Z.div_mod (v mod 100) 10 ltac:(lia)). assert (Q2 := Z.div_mod (v / 100) 10 ltac:(lia)).
  rewrite (Z.mod_small (v / 100 / 10)), (Z.mod_small (v mod 100 / 10)).
  - lia.
  - split; [apply Z.div_pos; lia|apply Z.div_lt_upper_bound; lia].
  - split; [apply Z.div_pos; lia|apply Z.div_lt_upper_bound; lia].
Qed.

(** ** Names *)
Lemma letter_upper c : letter (toupper c) <-> letter c.
Proof. unfold letter. destruct c as [[] [] [] [] [] [] [] []]; vm_compute; intuition congruence. Qed.
Lemma letters_same c d : toupper c = toupper d -> letter d -> letter c.
Proof. rewrite <- (letter_upper c), <- (letter_upper d). intros ->. auto. Qed.
Lemma name_named names n i w rest : nth_error names (Z.to_nat i) = Some n -> 0 <= i -> Forall letter n -> (3 <= List.length n)%nat ->
  w = n \/ w = firstn 3 n /\ ~ starts letter rest -> named names w rest i.
Proof.
  intros H Hi F L C. exists n. split; [exact H|]. split; [exact Hi|]. destruct C as [-> |[-> Hr]]; [left; reflexivity|].
  destruct n as [|a [|b [|c n]]]; try (cbn in L; lia). cbn [firstn]. destruct n as [|d n]; [left; reflexivity|]. right. split; [reflexivity|].
  intros (x & y & E & S1). apply Hr. unfold same_letters in S1. destruct x as [|x1 [|x2 [|x3 [|x4 x]]]]; try discriminate S1. cbn [app] in E.
  injection E as _ _ _ ->. cbn. cbn [map] in S1. injection S1 as _ _ _ S4 _. apply (letters_same _ _ S4).
  inversion F as [|? ? _ F1]; subst. inversion F1 as [|? ? _ F2]; subst. inversion F2 as [|? ? _ F3]; subst. inversion F3; assumption.
Qed.
Definition letter_b (c : ascii) : bool := (N.leb 65 (code c) && N.leb (code c) 90 || N.leb 97 (code c) && N.leb (code c) 122)%bool.
Lemma names_letters names : forallb (fun n => forallb letter_b n && Nat.leb 3 (List.length n)) names = true -> forall n, In n names -> Forall letter n /\ (3 <= List.length n)%nat.
Proof.
  intros H n I0. rewrite forallb_forall in H. apply H in I0. apply andb_true_iff in I0 as [I1 I2]. split; [|apply Nat.leb_le; exact I2].
  apply Forall_forall. intros c I3. rewrite forallb_forall in I1. apply I1 in I3. unfold letter_b in I3. unfold letter. rewrite orb_true_iff, !andb_true_iff, !N.leb_le in I3. exact I3.
Qed.

(** ** Parts *)
Definition upd (d : date) (p : part) (t : tm) : tm :=
  match p with
  | Space | Same _ | Century | Week => t
  | Year | YearOf100 => set_year (year d - 1900) t
  | Month | MonthName => set_mon (month d - 1) t
  | Day => set_mday (mday d) t
  | DayOfYear => set_yday (yday d - 1) t
  | DayOfWeek | DayName => set_wday (wday d) t
  | Hour => set_hour (hour d) t
  | Hour12 => set_hour (hour d mod 12) t
  | Minute => set_min (minute d) t
  | Second => set_sec (second d) t
  | Half => if hour d <? 12 then t else set_hour (tm_hour t + 12) t
  end.
Lemma written_takes d p w rest t : valid d -> written p d w rest -> (p = Half -> tm_hour t <= 11) -> takes p w rest t (upd d p t).
Proof.
  intros (Vy & Vm & Vd & Vj & Vw & Vh & Vmi & Vs) W Hh. destruct p; cbn [written takes upd] in *.
  - destruct W as [-> W]. repeat split; [repeat constructor|exact W].
  - auto.
  - exists (year d). subst w. split; [apply four_number; [lia|lia|reflexivity]|reflexivity].
  - destruct W as [-> W]. exists (year d mod 100). assert (B := Z.mod_pos_bound (year d) 100 ltac:(lia)).
    split; [apply two_number; [lia|lia|reflexivity]|]. f_equal. assert (Q := Z.div_mod (year d) 100 ltac:(lia)).
    assert (Q2 : year d / 100 = 19 \/ year d / 100 = 20) by lia. destruct (Z.ltb_spec (year d mod 100) 69); lia.
  - exact W.
  - exists (month d). subst w. split; [apply two_number; [lia|lia|reflexivity]|reflexivity].
  - exists (mday d). subst w. split; [apply two_number; [lia|lia|reflexivity]|reflexivity].
  - exists (yday d). subst w. split; [apply three_number; [lia|lia|reflexivity]|reflexivity].
  - exists (wday d). subst w. split; [apply one_number; [lia|lia|reflexivity]|reflexivity].
  - destruct W.
  - exists (hour d). subst w. split; [apply two_number; [lia|lia|reflexivity]|reflexivity].
  - assert (B := Z.mod_pos_bound (hour d) 12 ltac:(lia)). subst w. destruct (Z.eqb_spec (hour d mod 12) 0) as [E|E].
    + exists 12. split; [apply two_number; [lia|lia|reflexivity]|]. rewrite E. reflexivity.
    + exists (hour d mod 12). split; [apply two_number; [lia|lia|reflexivity]|]. rewrite Z.mod_mod by lia. reflexivity.
  - exists (minute d). subst w. split; [apply two_number; [lia|lia|reflexivity]|reflexivity].
  - exists (second d). subst w. split; [apply two_number; [lia|lia|reflexivity]|reflexivity].
  - destruct W as (n & Hn & C). exists (month d - 1). split; [|reflexivity].
    assert (N := names_letters month_names eq_refl n (nth_error_In _ _ Hn)). destruct N as [N1 N2]. apply (name_named _ n); auto; lia.
  - destruct W as (n & Hn & C). exists (wday d). split; [|reflexivity].
    assert (N := names_letters day_names eq_refl n (nth_error_In _ _ Hn)). destruct N as [N1 N2]. apply (name_named _ n); auto; lia.
  - destruct W as [-> ->]. split; [reflexivity|]. split; [auto|]. destruct (hour d <? 12); [left|right]; split; reflexivity.
Qed.
Definition final (d : date) (ps : list part) (t : tm) : tm := fold_left (fun t p => upd d p t) ps t.
Lemma name_nonempty names i (rest : str) : forallb (fun n => forallb letter_b n && Nat.leb 3 (List.length n)) names = true ->
  (exists n : str, nth_error names i = Some n /\ ([] = n \/ [] = firstn 3 n /\ ~ starts letter rest)) -> False.
Proof.
  intros H (n & Hn & C). destruct (names_letters names H n (nth_error_In _ _ Hn)) as [_ L]. destruct n as [|a [|b [|c n]]]; cbn in L; try lia.
  destruct C as [C|[C _]]; discriminate C.
Qed.
Lemma written_nonempty d p w rest : written p d w rest -> w <> [].
Proof.
  intros W ->. destruct p; cbn [written] in W; try discriminate W; try exact W; try (destruct W as [W _]; discriminate W).
  - exact (name_nonempty month_names _ _ eq_refl W).
  - exact (name_nonempty day_names _ _ eq_refl W).
  - destruct W as [_ W]. destruct (hour d <? 12); discriminate W.
Qed.
Lemma written_end d ps : written_all d ps [] -> ps = [].
Proof.
  intros H. remember (@nil ascii) as text eqn:E. destruct H as [|p ps w text W H]; [reflexivity|]. destruct w; [|discriminate E].
  exfalso. exact (written_nonempty _ _ _ _ W eq_refl).
Qed.
(** The hour, before the rest of the parts. *)
Definition ready (d : date) (ps : list part) (t : tm) : Prop :=
  ~ In Half ps \/ ~ In Hour ps /\ (In Hour12 ps \/ tm_hour t = hour d mod 12).
Lemma half_last d ps text : written_all d (Half :: ps) text -> ps = [].
Proof. intros H. inversion H as [|p ps' w text' W R]; subst. destruct W as [-> _]. exact (written_end _ _ R). Qed.
Lemma ready_step d p ps t text : written_all d (p :: ps) text -> ready d (p :: ps) t -> (p = Half -> tm_hour t = hour d mod 12) /\ ready d ps (upd d p t).
Proof.
  intros W R. assert (P : p = Half -> tm_hour t = hour d mod 12 /\ ps = []).
  { intros ->. assert (E := half_last _ _ _ W). subst ps. destruct R as [R|[_ [[R|[]]|R]]]; [exfalso; apply R; left; reflexivity|discriminate R|auto]. }
  split; [intros E; apply P; exact E|]. destruct R as [R|[R1 R2]]; [left; intros I0; apply R; right; exact I0|].
  destruct p; try (right; split; [intros I0; apply R1; right; exact I0|]; cbn [upd tm_hour set_year set_mon set_mday set_yday set_wday set_min set_sec];
    destruct R2 as [[R2|R2]|R2]; [discriminate R2|left; exact R2|right; exact R2]).
  - exfalso. apply R1. left. reflexivity.
  - right. split; [intros I0; apply R1; right; exact I0|]. right. reflexivity.
  - left. destruct (P eq_refl) as [_ ->]. intros [].
Qed.
Lemma written_reads d ps text : valid d -> written_all d ps text -> forall t, ready d ps t -> reads ps text t [] (final d ps t).
Proof.
  intros V W. induction W as [|p ps w text Wp W IH]; intros t R; [constructor|].
  destruct (ready_step d p ps t (w ++ text)) as [H1 H2]; [constructor; assumption|exact R|].
  apply (reads_part p ps w text t (upd d p t)); [|apply IH; exact H2].
  apply written_takes; [exact V|exact Wp|]. intros ->. rewrite (H1 eq_refl). assert (B := Z.mod_pos_bound (hour d) 12). lia.
Qed.
Lemma part_dec (p q : part) : {p = q} + {p <> q}.
Proof. decide equality. apply ascii_dec. Qed.
Lemma has_dec ps X : {has ps X} + {~ has ps X}.
Proof.
  destruct (Exists_dec (fun p => In p ps) X (fun p => in_dec part_dec p ps)) as [E|E]; [left|right].
  - apply Exists_exists in E. destruct E as (p & H1 & H2). exists p. auto.
  - intros (p & H1 & H2). apply E. apply Exists_exists. exists p. auto.
Qed.
Lemma told_final d (f : tm -> Z) new X : (forall p t, In p X -> f (upd d p t) = new) -> forall ps, (forall p t, In p ps -> ~ In p X -> f (upd d p t) = f t) ->
  forall t, told (has ps X) (f (final d ps t)) new (f t).
Proof.
  intros Hin. induction ps as [|p ps IH]; intros Hout t.
  - split; [intros (p & _ & [])|reflexivity].
  - cbn [final fold_left]. fold (final d ps (upd d p t)). destruct (IH (fun p t I0 => Hout p t (or_intror I0)) (upd d p t)) as [I1 I2].
    assert (D : {In p X} + {~ In p X}) by apply (in_dec part_dec). split.
    + intros (q & H1 & [<- |H2]); [|apply I1; exists q; auto]. destruct (has_dec ps X) as [H|H]; [auto|]. rewrite (I2 H). apply Hin. exact H1.
    + intros N. rewrite I2 by (intros (q & H1 & H2); apply N; exists q; split; [|right]; assumption).
      apply Hout; [left; reflexivity|]. intros I0. apply N. exists p. split; [exact I0|left; reflexivity].
Qed.
Lemma hour_final d ps text : valid d -> written_all d ps text -> ~ In Hour ps -> In Half ps -> forall t, In Hour12 ps \/ tm_hour t = hour d mod 12 -> tm_hour (final d ps t) = hour d.
Proof.
  intros V W N. induction W as [|p ps w text Wp W IH]; [intros []|]. intros Hh t Ht. cbn [final fold_left]. fold (final d ps (upd d p t)).
  assert (Nn : ~ In Hour ps) by (intros I0; apply N; right; exact I0).
  destruct (ready_step d p ps t (w ++ text)) as [H1 H2]; [constructor; assumption|right; auto|].
  destruct (part_dec p Half) as [-> |Np].
  - assert (E := half_last d ps (w ++ text) (written_part _ _ _ _ _ Wp W)). subst ps. cbn [final fold_left upd].
    rewrite (Z.div_mod (hour d) 12) at 2 by lia. destruct V as (_ & _ & _ & _ & _ & Vh & _). destruct (Z.ltb_spec (hour d) 12).
    + rewrite (H1 eq_refl). assert (hour d / 12 = 0) as -> by (apply Z.div_small; lia). lia.
    + cbn [tm_hour set_hour]. rewrite (H1 eq_refl). assert (Q := Z.div_mod (hour d) 12 ltac:(lia)). assert (B := Z.mod_pos_bound (hour d) 12 ltac:(lia)). lia.
  - destruct Hh as [Hh|Hh]; [contradiction|]. apply (IH Nn Hh). destruct H2 as [H2|[_ H2]]; [contradiction|exact H2].
Qed.
Lemma final_same d ps text t : valid d -> written_all d ps text -> clock ps -> same_date ps d t (final d ps t).
Proof.
  intros V W C. unfold same_date.
  assert (G : forall f new X, (forall p t, In p X -> f (upd d p t) = new) -> (forall p t, In p ps -> ~ In p X -> f (upd d p t) = f t) -> told (has ps X) (f (final d ps t)) new (f t))
    by (intros; apply told_final; assumption).
  Ltac tell G := apply G; clear; [intros p t I0; repeat (destruct I0 as [<- |I0]; [reflexivity|]); destruct I0|
    intros p t _ N; destruct p; cbn; try (destruct (hour _ <? 12)); cbn; first [reflexivity|exfalso; apply N; cbn; tauto]].
  split; [tell G|]. split; [tell G|]. split; [tell G|]. split; [tell G|]. split; [tell G|]. split; [|split; [tell G|split; [tell G|]]].
  - destruct C as [[C1 C2]|(C0 & C1 & C2)].
    + assert (Q : told (has ps [Hour]) (tm_hour (final d ps t)) (hour d) (tm_hour t)).
      { apply G; [intros p t0 [<- |[]]; reflexivity|]. intros p t0 H N. destruct p; try reflexivity; exfalso; first [apply N; left; reflexivity|apply C1; exact H|apply C2; exact H]. }
      destruct Q as [Q1 Q2]. split.
      * intros (p & Hp & H). destruct Hp as [<- |[<- |[]]]; [|contradiction]. apply Q1. exists Hour. split; [left; reflexivity|exact H].
      * intros N. apply Q2. intros (p & [<- |[]] & H). apply N. exists Hour. split; [left; reflexivity|exact H].
    + split.
      * intros _. apply (hour_final d ps text V W C0 C2 t). left. exact C1.
      * intros N. exfalso. apply N. exists Hour12. split; [right; left; reflexivity|exact C1].
  - clear -ps. revert t. induction ps as [|p ps IH]; intros t; [reflexivity|]. cbn [final fold_left]. fold (final d ps (upd d p t)). rewrite IH. destruct p; try reflexivity. cbn. destruct (hour d <? 12); reflexivity.
Qed.
Theorem round_trip d ps text t : valid d -> clock ps -> written_all d ps text -> exists t', reads ps text t [] t' /\ same_date ps d t t'.
Proof.
  intros V C W. exists (final d ps t). split; [|exact (final_same d ps text t V W C)]. apply written_reads; [exact V|exact W|].
  destruct C as [[_ C]|(C0 & C1 & _)]; [left; exact C|right; auto].
Qed.
