(** The closed form of the calendar is the calendar. *)
From Coq Require Import ZArith Bool List Lia.
From Verif.Model Require Import Stamp.
From Verif.Spec Require Import StampSpec.
Import ListNotations.
Open Scope Z_scope.

Lemma iter_succ {A} (f : A -> A) x k : 0 <= k -> Z.iter (Z.succ k) f x = f (Z.iter k f x).
Proof. destruct k; [reflexivity| |lia]. intros _. cbn [Z.iter]. rewrite <- Pos2Z.inj_succ. cbn [Z.iter]. apply Pos.iter_succ. Qed.

Lemma leap_era y k : leap (y + 400 * k) = leap y.
Proof.
  unfold leap.
  replace (y + 400 * k) with (y + (100 * k) * 4) at 1 by lia. rewrite Z.mod_add by lia.
  replace (y + 400 * k) with (y + (4 * k) * 100) at 1 by lia. rewrite Z.mod_add by lia.
  replace (y + 400 * k) with (y + k * 400) at 1 by lia. rewrite Z.mod_add by lia. reflexivity.
Qed.

Ltac Zify.zify_post_hook ::= Z.to_euclidean_division_equations.

(** Years that begin with March, within an era: their number from the day, and their first day. *)
Definition year_of (doe : Z) : Z := (doe - doe / 1460 + doe / 36524 - doe / 146096) / 365.
Definition first (y : Z) : Z := 365 * y + y / 4 - y / 100 + y / 400.

Lemma year_range doe : 0 <= doe < 146097 -> 0 <= year_of doe <= 399.
Proof. unfold year_of. lia. Qed.
Lemma year_from doe : 0 <= doe < 146097 -> first (year_of doe) <= doe.
Proof. intro H. pose proof (year_range doe H). unfold first, year_of in *. lia. Qed.
Lemma year_to doe : 0 <= doe < 146097 -> doe < first (year_of doe + 1).
Proof. intro H. pose proof (year_range doe H). unfold first, year_of in *. lia. Qed.
Lemma first_mono a b : 0 <= a -> a < b -> first a < first b.
Proof. unfold first. lia. Qed.
Lemma year_is doe y : 0 <= doe < 146097 -> 0 <= y -> first y <= doe < first (y + 1) -> year_of doe = y.
Proof.
  intros D Y B. pose proof (year_range doe D). pose proof (year_from doe D). pose proof (year_to doe D).
  destruct (Z.lt_total (year_of doe) y) as [L|[E|L]]; [|exact E|].
  - assert (first (year_of doe + 1) <= first y); [|lia]. destruct (Z.eq_dec (year_of doe + 1) y) as [->|]; [lia|].
    pose proof (first_mono (year_of doe + 1) y). lia.
  - assert (first (y + 1) <= first (year_of doe)); [|lia]. destruct (Z.eq_dec (y + 1) (year_of doe)) as [->|]; [lia|].
    pose proof (first_mono (y + 1) (year_of doe)). lia.
Qed.

(** Month and day from the day of such a year. *)
Definition month_of (doy : Z) : Z := let mp := (5 * doy + 2) / 153 in if mp <? 10 then mp + 3 else mp - 9.
Definition day_of (doy : Z) : Z := doy - (153 * ((5 * doy + 2) / 153) + 2) / 5 + 1.

Lemma civil_is n era doe : n + 719468 = 146097 * era + doe -> 0 <= doe < 146097 ->
  civil n = (year_of doe + era * 400 + (if month_of (doe - first (year_of doe)) <=? 2 then 1 else 0),
    month_of (doe - first (year_of doe)), day_of (doe - first (year_of doe))).
Proof.
  intros E D. unfold civil. rewrite E.
  replace ((146097 * era + doe) / 146097) with era by lia.
  replace ((146097 * era + doe) mod 146097) with doe by lia.
  pose proof (year_range doe D) as Y. fold (year_of doe).
  replace (doe - (365 * year_of doe + year_of doe / 4 - year_of doe / 100)) with (doe - first (year_of doe)); [reflexivity|].
  unfold first. replace (year_of doe / 400) with 0 by lia. lia.
Qed.

Definition month_good (doy : Z) : bool :=
  let m := month_of doy in let d := day_of doy in
  (1 <=? m) && (m <=? 12) && (1 <=? d) &&
  (if doy <=? 363
   then let m' := month_of (doy + 1) in let d' := day_of (doy + 1) in
     if d <? month_length 1 m then (m' =? m) && (d' =? d + 1) && (d <=? 31)
     else (d =? month_length 1 m) && (d' =? 1) && (m' =? (if m <? 12 then m + 1 else 1)) && negb (m =? 2)
   else (m =? 2) && (d =? doy - 336)).
Lemma months_good : forallb month_good (map Z.of_nat (seq 0 366)) = true.
Proof. vm_compute. reflexivity. Qed.
Lemma month_is doy : 0 <= doy <= 365 -> month_good doy = true.
Proof.
  intro D. pose proof months_good as G. rewrite forallb_forall in G. apply G. apply in_map_iff.
  exists (Z.to_nat doy). split; [lia|]. apply in_seq. lia.
Qed.

Lemma month_cases doy : 0 <= doy <= 365 ->
  1 <= month_of doy <= 12 /\ 1 <= day_of doy /\
  (doy <= 363 ->
     (day_of doy < month_length 1 (month_of doy) /\ month_of (doy + 1) = month_of doy /\ day_of (doy + 1) = day_of doy + 1) \/
     (day_of doy = month_length 1 (month_of doy) /\ month_of doy <> 2 /\ day_of (doy + 1) = 1 /\
      month_of (doy + 1) = (if month_of doy <? 12 then month_of doy + 1 else 1))) /\
  (363 < doy -> month_of doy = 2 /\ day_of doy = doy - 336).
Proof.
  intro D. pose proof (month_is doy D) as G. unfold month_good in G. rewrite !andb_true_iff, !Z.leb_le in G.
  destruct G as [[[A B] C] G]. do 2 (split; [lia|]).
  destruct (Z.leb_spec doy 363); (split; [intro; try lia|intro; try lia]).
  destruct (Z.ltb_spec (day_of doy) (month_length 1 (month_of doy))).
    + left. rewrite !andb_true_iff, !Z.eqb_eq in G. intuition lia.
    + right. rewrite !andb_true_iff, !Z.eqb_eq, negb_true_iff, Z.eqb_neq in G. intuition lia.
Qed.

Lemma length_common y m : m <> 2 -> month_length y m = month_length 1 m.
Proof. intro M. unfold month_length. destruct (Z.eqb_spec m 2); [contradiction|reflexivity]. Qed.
Lemma length_feb y : 28 <= month_length y 2 <= 29.
Proof. unfold month_length. cbn [Z.eqb Pos.eqb]. destruct (leap y); lia. Qed.
Lemma length_31 y m : 28 <= month_length y m <= 31.
Proof. unfold month_length. destruct (m =? 2); [destruct (leap y); lia|]. destruct (_ || _)%bool; lia. Qed.

(** The last day of such a year is the last of February. *)
Lemma year_length y era : 0 <= y <= 399 ->
  first (y + 1) - 1 - first y - 336 = month_length (y + era * 400 + 1) 2 /\ 364 <= first (y + 1) - 1 - first y <= 365.
Proof.
  intro Y. unfold month_length. cbn [Z.eqb Pos.eqb]. replace (y + era * 400 + 1) with (y + 1 + 400 * era) by lia. rewrite leap_era.
  unfold leap, first.
  destruct (Z.eqb_spec ((y + 1) mod 4) 0), (Z.eqb_spec ((y + 1) mod 100) 0), (Z.eqb_spec ((y + 1) mod 400) 0); cbn [andb orb negb]; lia.
Qed.

Lemma civil_parts n : exists era y doy, n + 719468 = 146097 * era + first y + doy /\ 0 <= y <= 399 /\ 0 <= doy < first (y + 1) - first y /\
  first y + doy < 146097.
Proof.
  set (doe := (n + 719468) mod 146097). assert (D : 0 <= doe < 146097) by (subst doe; lia).
  exists ((n + 719468) / 146097), (year_of doe), (doe - first (year_of doe)).
  pose proof (year_range doe D). pose proof (year_from doe D). pose proof (year_to doe D). subst doe. repeat split; try lia.
Qed.

Lemma civil_at n era y doy : n + 719468 = 146097 * era + first y + doy -> 0 <= y <= 399 -> 0 <= doy < first (y + 1) - first y ->
  first y + doy < 146097 -> civil n = (y + era * 400 + (if month_of doy <=? 2 then 1 else 0), month_of doy, day_of doy).
Proof.
  intros E Y D L. assert (F : 0 <= first y) by (unfold first; lia).
  rewrite (civil_is n era (first y + doy)) by lia.
  rewrite (year_is (first y + doy) y) by lia. replace (first y + doy - first y) with doy by lia. reflexivity.
Qed.

Lemma civil_step n : civil (n + 1) = tomorrow (civil n).
Proof.
  destruct (civil_parts n) as (era & y & doy & E & Y & D & L).
  rewrite (civil_at n era y doy E Y D L). destruct (year_length y era Y) as [YL YB].
  destruct (Z.eq_dec (doy + 1) (first (y + 1) - first y)) as [Last|NL].
  - (* the last of February *)
    destruct (month_cases doy ltac:(lia)) as (_ & _ & _ & G). destruct (G ltac:(lia)) as [-> ->]. cbn [Z.leb Z.compare Pos.compare Pos.compare_cont].
    unfold tomorrow. rewrite (proj2 (Z.ltb_ge _ _)) by lia. cbn [Z.ltb Z.compare Pos.compare Pos.compare_cont].
    destruct (Z.eq_dec y 399) as [->|].
    + rewrite (civil_at (n + 1) (era + 1) 0 0).
      * change (month_of 0) with 3. change (day_of 0) with 1. cbn [Z.leb Z.compare Pos.compare Pos.compare_cont]. f_equal. f_equal. lia.
      * change (first (399 + 1)) with 146097 in *. change (first 399) with 145731 in *. change (first 0) with 0. lia.
      * lia.
      * change (first (0 + 1)) with 365. change (first 0) with 0. lia.
      * change (first 0) with 0. lia.
    + rewrite (civil_at (n + 1) era (y + 1) 0).
      * change (month_of 0) with 3. change (day_of 0) with 1. cbn [Z.leb Z.compare Pos.compare Pos.compare_cont]. f_equal. f_equal. lia.
      * lia.
      * lia.
      * pose proof (first_mono (y + 1) (y + 1 + 1)). lia.
      * pose proof (first_mono (y + 1) 400). change (first 400) with 146097 in *. lia.
  - rewrite (civil_at (n + 1) era y (doy + 1)); try lia.
    2: { assert (first (y + 1) <= first 400); [|change (first 400) with 146097 in *; lia].
         destruct (Z.eq_dec (y + 1) 400) as [->|]; [lia|]. pose proof (first_mono (y + 1) 400). lia. }
    destruct (month_cases doy ltac:(lia)) as (M & Dy & G & G'). destruct (Z_le_gt_dec doy 363) as [S|S].
    + destruct (G S) as [(A & -> & ->)|(A & B & -> & ->)].
      * unfold tomorrow. rewrite (proj2 (Z.ltb_lt _ _)); [reflexivity|].
        destruct (Z.eq_dec (month_of doy) 2) as [M2|M2]; [|rewrite length_common by exact M2; exact A].
        rewrite M2 in *. pose proof (length_feb (y + era * 400 + (if 2 <=? 2 then 1 else 0))). change (month_length 1 2) with 28 in A. lia.
      * unfold tomorrow. rewrite length_common by exact B. rewrite (proj2 (Z.ltb_ge (day_of doy) (month_length 1 (month_of doy)))) by lia.
        destruct (Z.ltb_spec (month_of doy) 12).
        -- f_equal. f_equal. destruct (Z.leb_spec (month_of doy) 2), (Z.leb_spec (month_of doy + 1) 2); lia.
        -- f_equal. f_equal. destruct (Z.leb_spec (month_of doy) 2); [lia|]. cbn. lia.
    + assert (doy = 364) by lia. subst doy. change (364 + 1) with 365. change (month_of 365) with 2. change (day_of 365) with 29.
      change (month_of 364) with 2. change (day_of 364) with 28. cbn [Z.leb Z.compare Pos.compare Pos.compare_cont].
      unfold tomorrow. rewrite (proj2 (Z.ltb_lt _ _)) by lia. reflexivity.
Qed.

Lemma civil_fits n : let '(y, m, d) := civil n in 1 <= m <= 12 /\ 1 <= d <= month_length y m.
Proof.
  destruct (civil_parts n) as (era & y & doy & E & Y & D & L).
  rewrite (civil_at n era y doy E Y D L). destruct (year_length y era Y) as [YL YB].
  destruct (month_cases doy ltac:(lia)) as (M & Dy & G & G'). split; [exact M|]. split; [exact Dy|].
  destruct (Z_le_gt_dec doy 363) as [S|S].
  - destruct (G S) as [(A & _)|(A & B & _)].
    + destruct (Z.eq_dec (month_of doy) 2) as [M2|M2]; [|rewrite length_common by exact M2; lia].
      rewrite M2 in *. pose proof (length_feb (y + era * 400 + (if 2 <=? 2 then 1 else 0))). change (month_length 1 2) with 28 in A. lia.
    + rewrite length_common by exact B. lia.
  - destruct (G' ltac:(lia)) as [-> ->]. cbn [Z.leb Z.compare Pos.compare Pos.compare_cont]. lia.
Qed.

Lemma civil_nth n : 0 <= n -> civil n = nth_day n.
Proof.
  revert n. apply natlike_ind; [reflexivity|]. intros n N IH. unfold nth_day. rewrite iter_succ by lia.
  change (Z.iter n tomorrow (1970, 1, 1)) with (nth_day n). rewrite <- IH. apply civil_step.
Qed.

(** ** The order of the days *)
Definition date_lt (a b : date) : Prop :=
  let '(y, m, d) := a in let '(y', m', d') := b in y < y' \/ y = y' /\ (m < m' \/ m = m' /\ d < d').

Lemma date_lt_trans a b c : date_lt a b -> date_lt b c -> date_lt a c.
Proof. destruct a as [[]], b as [[]], c as [[]]. unfold date_lt. lia. Qed.

Lemma tomorrow_later x : let '(y, m, d) := x in 1 <= m <= 12 -> date_lt x (tomorrow x).
Proof.
  destruct x as [[y m] d]. intro M. unfold tomorrow. destruct (d <? _); [cbn; lia|]. destruct (Z.ltb_spec m 12); cbn; lia.
Qed.

Lemma civil_lt a b : a < b -> date_lt (civil a) (civil b).
Proof.
  intro L. replace b with (a + 1 + (b - a - 1)) by lia. assert (K : 0 <= b - a - 1) by lia. revert K. generalize (b - a - 1). intros k K.
  revert k K. apply natlike_ind.
  - rewrite Z.add_0_r, civil_step. pose proof (civil_fits a) as F. pose proof (tomorrow_later (civil a)) as T.
    destruct (civil a) as [[y m] d]. apply T. apply F.
  - intros k K IH. eapply date_lt_trans; [exact IH|]. replace (a + 1 + Z.succ k) with (a + 1 + k + 1) by lia. rewrite civil_step.
    pose proof (civil_fits (a + 1 + k)) as F. pose proof (tomorrow_later (civil (a + 1 + k))) as T.
    destruct (civil (a + 1 + k)) as [[y m] d]. apply T. apply F.
Qed.

Lemma civil_le a b : a <= b -> a = b \/ date_lt (civil a) (civil b).
Proof. intro L. destruct (Z.eq_dec a b); [left; assumption|right]. apply civil_lt. lia. Qed.

Lemma civil_years n : 0 <= n < 2932897 -> let '(y, m, d) := civil n in 1970 <= y <= 9999.
Proof.
  intro N. assert (F := civil_le 0 n ltac:(lia)). assert (B := civil_lt n 2932897 ltac:(lia)).
  change (civil 2932897) with (10000, 1, 1) in B. change (civil 0) with (1970, 1, 1) in F.
  pose proof (civil_fits n) as G.
  destruct (civil n) as [[y m] d] eqn:E. cbn in F, B. destruct F as [F|F]; [subst n; vm_compute in E; injection E as <- _ _; lia|]. lia.
Qed.
