(** Printing a text in a column. *)
From Coq Require Import ZArith Bool List Ascii String Arith Lia.
From Verif.Base Require Import CInt CStr CMem.
From Verif.Model Require Import ArgInt Argtable Dstr ArgCat Messages Wrap.
From Verif.Spec Require Import WrapSpec.
Import ListNotations.
Open Scope list_scope.
Open Scope nat_scope.

Local Notation len := List.length.
Definition blank (c : ascii) : bool := isspace c && negb (aeqb c NL).

(** ** The same on lists *)
Fixpoint skip_blanks (s : str) : str :=
  match s with c :: r => if blank c then skip_blanks r else s | [] => [] end.
(** The last position in [1..k] with white space. *)
Fixpoint last_space (s : str) (k : nat) : option nat :=
  match k with
  | 0 => None
  | S k' => match nth_error s k with Some c => if isspace c then Some k else last_space s k' | None => last_space s k' end
  end.

(** Reading. *)
Lemma char_in text a c r : text = a ++ c :: r -> char_at text (len a) = Val c.
Proof.
  intros ->. unfold char_at, load, terminated, bytes. rewrite map_app, <- app_assoc. rewrite nth_error_app2 by (rewrite map_length; lia).
  rewrite map_length, Nat.sub_diag. reflexivity.
Qed.
Lemma char_end text : char_at text (len text) = Val NUL.
Proof.
  unfold char_at, load, terminated, bytes. rewrite nth_error_app2 by (rewrite map_length; lia). rewrite map_length, Nat.sub_diag. reflexivity.
Qed.
Lemma nul_not_space : isspace NUL = false.
Proof. reflexivity. Qed.

Lemma eat_ok text : forall r a, text = a ++ r -> exists b, r = b ++ skip_blanks r /\ Forall (fun c => blank c = true) b /\
  eat (len text + 1 - len a) text (len a) = Val (len a + len b).
Proof.
  induction r as [|c r IH]; intros a E.
  - exists []. split; [reflexivity|]. split; [constructor|]. rewrite app_nil_r in E. subst a.
    replace (len text + 1 - len text) with 1 by lia. cbn [eat]. rewrite char_end. cbn. f_equal. lia.
  - replace (len text + 1 - len a) with (S (len text + 1 - len (a ++ [c]))) by (rewrite E, !app_length; cbn; lia).
    cbn [eat]. rewrite (char_in text a c r E). cbn [cbind skip_blanks]. fold (blank c). destruct (blank c) eqn:B.
    + destruct (IH (a ++ [c])) as (b & Eb & Fb & H); [rewrite E, <- app_assoc; reflexivity|].
      exists (c :: b). split; [cbn; rewrite <- Eb; reflexivity|]. split; [constructor; assumption|].
      replace (S (len a)) with (len (a ++ [c])) by (rewrite app_length; cbn; lia). rewrite H. f_equal. rewrite app_length. cbn. lia.
    + exists []. split; [reflexivity|]. split; [constructor|]. f_equal. cbn. lia.
Qed.
Lemma skip_blanks_head s c r : skip_blanks s = c :: r -> blank c = false.
Proof. induction s as [|x s IH]; cbn; [discriminate|]. destruct (blank x) eqn:B; [exact IH|]. intros E. injection E as -> _. exact B. Qed.

Lemma char_nth text a r k c : text = a ++ r -> nth_error r k = Some c -> char_at text (len a + k) = Val c.
Proof.
  intros E N. destruct (nth_error_split _ _ N) as (r1 & r2 & Er & L). subst r k. rewrite <- app_length. apply (char_in text (a ++ r1) c r2).
  rewrite E, <- app_assoc. reflexivity.
Qed.
Lemma find_ok text a r : text = a ++ r -> forall k, k < len r ->
  find_space text (len a) (len a + k) = Val (len a + match last_space r k with Some j => j | None => 0 end).
Proof.
  intros E. induction k as [|k IH]; intros L.
  - rewrite Nat.add_0_r. cbn [last_space]. rewrite Nat.add_0_r. destruct (len a) as [|n]; [reflexivity|]. cbn [find_space]. rewrite Nat.ltb_irrefl. reflexivity.
  - destruct (nth_error r (S k)) as [c|] eqn:N; [|apply nth_error_None in N; lia].
    cbn [last_space]. rewrite N. pose proof (char_nth text a r (S k) c E N) as H. rewrite Nat.add_succ_r in *. cbn [find_space].
    rewrite (proj2 (Nat.ltb_lt _ _)) by lia. rewrite H. cbn [cbind]. destruct (isspace c); cbn [negb]; [f_equal; lia|]. apply IH. lia.
Qed.
Lemma last_space_some s k j : last_space s k = Some j -> 1 <= j <= k /\ exists c, nth_error s j = Some c /\ isspace c = true.
Proof.
  induction k as [|k IH]; cbn [last_space]; [discriminate|]. destruct (nth_error s (S k)) as [c|] eqn:N.
  - destruct (isspace c) eqn:I; intros E; [injection E as <-; split; [lia|exists c; auto]|]. destruct (IH E) as (B & H). split; [lia|exact H].
  - intros E. destruct (IH E) as (B & H). split; [lia|exact H].
Qed.
Lemma last_space_none s k : last_space s k = None -> forall j c, 1 <= j <= k -> nth_error s j = Some c -> isspace c = false.
Proof.
  induction k as [|k IH]; cbn [last_space]; intros E j c B N; [lia|].
  destruct (Nat.eq_dec j (S k)) as [->|D].
  - rewrite N in E. destruct (isspace c); [discriminate|reflexivity].
  - apply (IH) with (j := j); [|lia|exact N]. destruct (nth_error s (S k)) as [x|]; [destruct (isspace x); [discriminate|exact E]|exact E].
Qed.

(** Where the trailing blanks begin. *)
Lemma consume_ok text a c0 r : text = a ++ c0 :: r -> forall k, k <= len r ->
  exists j, consume text (len a) (len a + k) = Val (len a + j) /\ j <= k /\
    (aeqb c0 NL = true -> j = k) /\
    (aeqb c0 NL = false -> (j = 0 \/ exists c, nth_error (c0 :: r) j = Some c /\ isspace c = false) /\
                       forall i c, j < i <= k -> nth_error (c0 :: r) i = Some c -> isspace c = true).
Proof.
  intros E. induction k as [|k IH]; intros L.
  - exists 0. split; [rewrite Nat.add_0_r; destruct (len a) as [|n]; [reflexivity|]; cbn [consume]; rewrite Nat.ltb_irrefl; reflexivity|].
    split; [lia|]. split; [reflexivity|]. intros _. split; [left; reflexivity|]. intros i c B. lia.
  - destruct (nth_error (c0 :: r) (S k)) as [c|] eqn:N; [|apply nth_error_None in N; cbn in N; lia].
    pose proof (char_nth text a (c0 :: r) (S k) c E N) as H. rewrite Nat.add_succ_r in *. cbn [consume].
    rewrite (proj2 (Nat.ltb_lt _ _)) by lia. rewrite H. cbn [cbind]. rewrite (char_in text a c0 r E). cbn [cbind].
    destruct (isspace c && negb (aeqb c0 NL)) eqn:B.
    + apply andb_true_iff in B. destruct B as (B1 & B2). apply negb_true_iff in B2. destruct (IH ltac:(lia)) as (j & Ej & Lj & _ & Hj).
      exists j. split; [exact Ej|]. split; [lia|]. split; [congruence|]. intros _. destruct (Hj B2) as (H1 & H2). split; [exact H1|].
      intros i x Bi Ni. destruct (Nat.eq_dec i (S k)) as [->|D]; [congruence|apply (H2 i x); [lia|exact Ni]].
    + exists (S k). split; [f_equal; lia|]. split; [lia|]. split; [reflexivity|]. intros Nc. rewrite Nc in B. cbn [negb] in B. rewrite andb_true_r in B.
      split; [right; exists c; auto|]. intros i x Bi. lia.
Qed.

(** The line: up to [n] characters, or to the newline. *)
Fixpoint take_line (n : nat) (s : str) : str * str :=
  match n, s with
  | 0, _ => ([], s)
  | S n, [] => ([], [])
  | S n, c :: r => if aeqb c NL then ([], r) else let (l, rest) := take_line n r in (c :: l, rest)
  end.
Lemma print_line_ok text : forall n r a, text = a ++ r -> n <= len r ->
  exists l rest, take_line n r = (l, rest) /\ print_line n text (len a) = Val (len text - len rest, map Catc l) /\ len rest <= len r.
Proof.
  induction n as [|n IH]; intros r a E L.
  - exists [], r. split; [destruct r; reflexivity|]. split; [|lia]. cbn [print_line map]. do 2 f_equal. rewrite E, app_length. lia.
  - destruct r as [|c r]; [cbn in L; lia|]. cbn [take_line print_line]. rewrite (char_in text a c r E). cbn [cbind]. destruct (aeqb c NL).
    + exists [], r. split; [reflexivity|]. split; [|cbn; lia]. cbn [map]. do 2 f_equal. rewrite E, app_length. cbn. lia.
    + destruct (IH r (a ++ [c])) as (l & rest & T & P & Lr); [rewrite E, <- app_assoc; reflexivity|cbn in L; lia|].
      rewrite T. exists (c :: l), rest. split; [reflexivity|]. split; [|cbn; lia].
      replace (S (len a)) with (len (a ++ [c])) by (rewrite app_length; cbn; lia). rewrite P. reflexivity.
Qed.
Lemma take_line_app n : forall r l rest, take_line n r = (l, rest) -> n <= len r ->
  ~ In NL l /\ len l <= n /\ ((r = l ++ NL :: rest /\ len l < n) \/ (r = l ++ rest /\ len l = n)).
Proof.
  induction n as [|n IH]; intros r l rest T L.
  - assert (([], r) = (l, rest)) as E by (destruct r; exact T). injection E as <- <-. split; [intros []|]. split; [cbn; lia|]. right. split; reflexivity.
  - destruct r as [|c r]; [cbn in L; lia|]. cbn [take_line] in T. destruct (aeqb c NL) eqn:C.
    + injection T as <- <-. apply aeqb_eq in C. subst c. split; [intros []|]. split; [cbn; lia|]. left. split; [reflexivity|cbn; lia].
    + destruct (take_line n r) as (l', rest') eqn:T'. injection T as <- <-. destruct (IH r l' rest' T' ltac:(cbn in L; lia)) as (N & B & D).
      split; [intros [J|J]; [subst c; rewrite aeqb_refl in C; discriminate|exact (N J)]|]. split; [cbn; lia|].
      destruct D as [(-> & D)|(-> & D)]; [left|right]; (split; [reflexivity|cbn; lia]).
Qed.

(** ** Words *)
Lemma words_cut b : (b = [] \/ exists c b', b = c :: b' /\ isspace c = true) -> forall a w, words_from w (a ++ b) = words_from w a ++ words b.
Proof.
  intros B. induction a as [|c a IH]; intros w; cbn [app].
  - destruct B as [->|(c & b' & -> & I)]; cbn [words_from].
    + destruct w; reflexivity.
    + unfold words. cbn [words_from]. rewrite I. destruct w; reflexivity.
  - cbn [words_from]. destruct (isspace c); [|apply IH]. destruct w; [apply IH|]. cbn [app]. f_equal. apply IH.
Qed.
Lemma words_space c b : isspace c = true -> words (c :: b) = words b.
Proof. intros I. unfold words. cbn [words_from]. rewrite I. reflexivity. Qed.
Lemma words_blanks b r : Forall (fun c => blank c = true) b -> words (b ++ r) = words r.
Proof.
  induction 1 as [|c b H F IH]; [reflexivity|]. cbn [app]. rewrite words_space; [exact IH|]. unfold blank in H. apply andb_true_iff in H. apply H.
Qed.
Lemma words_solid l s : Forall (fun c => isspace c = false) l -> forall w, words_from w (l ++ s) = words_from (w ++ l) s.
Proof.
  induction 1 as [|c l H F IH]; intros w; cbn [app].
  - rewrite app_nil_r. reflexivity.
  - cbn [words_from]. rewrite H, IH, <- app_assoc. reflexivity.
Qed.
Lemma words_first s : exists u ws, forall w, w <> [] -> words_from w s = (w ++ u) :: ws.
Proof.
  induction s as [|c s (u & ws & IH)].
  - exists [], []. intros w N. rewrite app_nil_r. destruct w; [congruence|reflexivity].
  - destruct (isspace c) eqn:I.
    + exists [], (words s). intros w N. cbn [words_from]. rewrite I, app_nil_r. destruct w; [congruence|reflexivity].
    + exists (c :: u), ws. intros w N. cbn [words_from]. rewrite I, IH by (destruct w; discriminate). rewrite <- app_assoc. reflexivity.
Qed.
Lemma words_broken l c r : Forall (fun c => isspace c = false) l -> l <> [] -> isspace c = false ->
  exists u ws, words (l ++ c :: r) = (l ++ u) :: ws /\ words (c :: r) = u :: ws /\ u <> [] /\ words l = [l].
Proof.
  intros F N I. destruct (words_first r) as (u & ws & H). exists (c :: u), ws. split; [|split; [|split]].
  - unfold words. rewrite words_solid by exact F. cbn [app words_from]. rewrite I, H by (destruct l; discriminate). rewrite <- app_assoc. reflexivity.
  - unfold words. cbn [words_from]. rewrite I. cbn [app]. rewrite H by discriminate. reflexivity.
  - discriminate.
  - unfold words. rewrite <- (app_nil_r l) at 1. rewrite words_solid by exact F. cbn [app words_from]. destruct l; [congruence|reflexivity].
Qed.
Lemma words_nonempty s : forall w, ~ In [] (words_from w s).
Proof.
  induction s as [|c s IH]; intros w; cbn [words_from].
  - destruct w as [|x w]; cbn; [auto|intros [J|[]]; discriminate].
  - destruct (isspace c); [|apply IH]. destruct w as [|x w]; [apply IH|]. intros [J|J]; [discriminate|exact (IH [] J)].
Qed.

(** ** One line *)
Definition solid (l : str) : Prop := Forall (fun c => isspace c = false) l.
Definition clean_or_broken (W : Z) (r l rest : str) : Prop :=
  words r = words l ++ words rest \/
  (solid l /\ Z.of_nat (len l) = W /\ exists c r', rest = c :: r' /\ isspace c = false /\ words r = words (l ++ rest)).
Lemma nl_space : isspace NL = true.
Proof. reflexivity. Qed.

Lemma take_lines W text a1 r1 n : text = a1 ++ r1 -> 1 <= n <= len r1 -> 
  (forall l rest, r1 = l ++ rest -> len l = n -> ~ In NL l -> (Z.of_nat n <= W)%Z /\ clean_or_broken W r1 l rest) ->
  (r1 = NL :: tl r1 \/ (Z.of_nat n <= W)%Z) ->
  exists l rest, print_line n text (len a1) = Val (len text - len rest, map Catc l) /\ len rest < len r1 /\ (exists a', text = a' ++ rest) /\
    (len a1 + n < len text -> rest <> []) /\ (Z.of_nat (len l) <= Z.max W 0)%Z /\ ~ In NL l /\ clean_or_broken W r1 l rest /\ incl (l ++ rest) r1 /\ len l + len rest <= len r1.
Proof.
  intros E B C Bd. destruct (print_line_ok text n r1 a1 E ltac:(lia)) as (l & rest & T & P & _).
  destruct (take_line_app n r1 l rest T ltac:(lia)) as (N & L & D). exists l, rest. split; [exact P|].
  assert (len text = len a1 + len r1) as Lt by (rewrite E, app_length; reflexivity).
  destruct D as [(D & Ll)|(D & Ll)].
  - split; [rewrite D, app_length; cbn; lia|]. split; [exists (a1 ++ l ++ [NL]); rewrite E, D, <- !app_assoc; reflexivity|].
    split; [intros H R; subst rest; rewrite D, app_length in Lt; cbn in Lt; lia|]. split; [|split; [exact N|split]].
    + destruct Bd as [Bd|Bd]; [|lia]. rewrite Bd in D. destruct l as [|c l]; [cbn; lia|]. injection D as D1 D2. destruct N. left. symmetry. exact D1.
    + left. rewrite D. unfold words at 1. rewrite words_cut by (right; exists NL, rest; auto). rewrite (words_space NL rest nl_space). reflexivity.
    + split; [rewrite D; apply incl_app; [apply incl_appl, incl_refl|apply incl_appr, incl_tl, incl_refl]|]. rewrite D, app_length. cbn. lia.
  - destruct (C l rest D Ll N) as (C1 & C2).
    split; [rewrite D, app_length; lia|]. split; [exists (a1 ++ l); rewrite E, D, <- !app_assoc; reflexivity|].
    split; [intros H R; subst rest; rewrite app_nil_r in D; subst r1; lia|]. split; [lia|]. split; [exact N|]. split; [exact C2|]. rewrite D. split; [apply incl_refl|]. rewrite app_length. lia.
Qed.

Lemma round_ok W text a r : text = a ++ r -> r <> [] -> (1 <= W)%Z ->
  exists l rest le,
    cbind (eat (len text + 1 - len a) text (len a)) (fun ls =>
    cbind (line_break W text ls (len text)) (fun le =>
    cbind (print_line (le - ls) text ls) (fun '(ls, os) => Val (ls, le, os)))) = Val (len text - len rest, le, map Catc l) /\
    len rest < len r /\ (exists a', text = a' ++ rest) /\ le <= len text /\ (le < len text -> rest <> []) /\
    (Z.of_nat (len l) <= W)%Z /\ ~ In NL l /\ clean_or_broken W r l rest /\ incl (l ++ rest) r /\ len l + len rest <= len r.
Proof.
  intros E NE HW. destruct (eat_ok text r a E) as (b & Er & Fb & Ee). rewrite Ee. cbn [cbind].
  set (r1 := skip_blanks r) in *. set (a1 := a ++ b). replace (len a + len b) with (len a1) by (unfold a1; rewrite app_length; reflexivity).
  assert (text = a1 ++ r1) as E1 by (unfold a1; rewrite <- app_assoc, <- Er; exact E).
  assert (len text = len a1 + len r1) as Lt by (rewrite E1, app_length; reflexivity).
  assert (words r = words r1) as Wr by (rewrite Er; apply words_blanks, Fb).
  assert (len r1 <= len r) as Lr by (rewrite Er, app_length; lia).
  destruct r1 as [|c0 r1'] eqn:R1.
  - unfold line_break. replace (len text - len a1) with 0 by (cbn in Lt; lia). rewrite (proj2 (Z.ltb_ge _ _)) by lia. cbn [cbind].
    replace (len text - len a1) with 0 by (cbn in Lt; lia). cbn [print_line cbind].
    exists [], [], (len text). split; [cbn in *; do 3 f_equal; lia|]. split; [destruct r; [congruence|cbn; lia]|]. split; [exists text; symmetry; apply app_nil_r|].
    split; [lia|]. split; [lia|]. split; [cbn; lia|]. split; [intros []|]. split; [left; exact Wr|]. split; [intros y []|cbn; lia].
  - assert (blank c0 = false) as Bc by (apply (skip_blanks_head r c0 r1'); exact R1). clearbody a1. clear R1 Ee.
    assert (exists n, line_break W text (len a1) (len text) = Val (len a1 + n) /\ 1 <= n <= len (c0 :: r1') /\
      (forall l rest, c0 :: r1' = l ++ rest -> len l = n -> ~ In NL l -> (Z.of_nat n <= W)%Z /\ clean_or_broken W (c0 :: r1') l rest) /\
      (c0 :: r1' = NL :: r1' \/ (Z.of_nat n <= W)%Z)) as (n & En & Bn & Cn & Dn).
    { unfold line_break. destruct (W <? Z.of_nat (len text - len a1))%Z eqn:HL.
      - apply Z.ltb_lt in HL. set (w := Z.to_nat W). assert (1 <= w < len (c0 :: r1')) as Bw by (unfold w; lia).
        rewrite (find_ok text a1 (c0 :: r1') E1 w) by lia. cbn [cbind]. destruct (last_space (c0 :: r1') w) as [j|] eqn:F.
        + destruct (last_space_some _ _ _ F) as (Bj & cj & Nj & Ij). rewrite (proj2 (Nat.eqb_neq _ _)) by lia.
          destruct (consume_ok text a1 c0 r1' E1 j ltac:(cbn [List.length] in Bw; lia)) as (j' & -> & Lj & Hnl & Hno). cbn [cbind].
          exists (S j'). split; [f_equal; lia|]. split; [cbn [List.length] in *; lia|]. destruct (aeqb c0 NL) eqn:C0.
          * apply aeqb_eq in C0. subst c0. split; [|left; reflexivity]. intros l rest D Ll N. destruct l as [|x l]; [discriminate Ll|]. injection D as <- D. destruct N. left. reflexivity.
          * destruct (Hno eq_refl) as (H1 & H2). assert (j' < j) as Lj'.
            { destruct (Nat.eq_dec j' j) as [->|Dj]; [|lia]. destruct H1 as [H1|(x & Nx & Ix)]; [lia|]. congruence. }
            split; [|right; unfold w in *; lia]. intros l rest D Ll N. split; [unfold w in *; lia|]. left. rewrite D.
            unfold words at 1. apply words_cut. right. destruct rest as [|x rest]; [rewrite app_nil_r in D; rewrite D in Bw; cbn [List.length] in *; lia|].
            exists x, rest. split; [reflexivity|]. apply (H2 (S j') x); [lia|]. rewrite D, nth_error_app2, Ll, Nat.sub_diag by lia. reflexivity.
        + rewrite Nat.add_0_r, Nat.eqb_refl. exists w. split; [reflexivity|]. split; [lia|]. split; [|right; unfold w; lia].
          intros l rest D Ll N. split; [unfold w; lia|]. right. pose proof (last_space_none _ _ F) as H.
          assert (isspace c0 = false) as I0.
          { destruct l as [|x l]; [cbn in Ll; lia|]. injection D as <- D. unfold blank in Bc. destruct (isspace c0); [|reflexivity]. cbn [andb] in Bc.
            apply negb_false_iff, aeqb_eq in Bc. subst c0. destruct N. left. reflexivity. }
          assert (forall i x, i <= w -> nth_error (c0 :: r1') i = Some x -> isspace x = false) as Hs.
          { intros [|i] x Bi Nx; [injection Nx as <-; exact I0|apply (H (S i) x); [lia|exact Nx]]. }
          split; [|split; [unfold w in *; lia|]].
          * apply Forall_forall. intros x J. apply In_nth_error in J. destruct J as (i & Ni). assert (i < len l) as Li by (apply nth_error_Some; congruence).
            apply (Hs i x); [lia|]. rewrite D, nth_error_app1 by exact Li. exact Ni.
          * destruct rest as [|x rest]; [rewrite app_nil_r in D; rewrite D in Bw; lia|]. exists x, rest. split; [reflexivity|]. split; [|rewrite D; reflexivity].
            apply (Hs w x); [lia|]. rewrite D, nth_error_app2, Ll, Nat.sub_diag by lia. reflexivity.
      - apply Z.ltb_ge in HL. exists (len (c0 :: r1')). split; [f_equal; lia|]. split; [cbn [List.length]; lia|]. split; [|right; lia].
        intros l rest D Ll N. split; [lia|]. left. assert (rest = []) as -> by (rewrite D, app_length in Ll; destruct rest; [reflexivity|cbn in Ll; lia]).
        rewrite app_nil_r in D. rewrite D. symmetry. apply app_nil_r. }
    rewrite En. cbn [cbind]. replace (len a1 + n - len a1) with n by lia.
    destruct (take_lines W text a1 (c0 :: r1') n E1 Bn Cn Dn) as (l & rest & -> & H1 & H2 & H3 & H4 & H5 & H6 & H7 & H8). cbn [cbind].
    exists l, rest, (len a1 + n). split; [reflexivity|]. split; [lia|]. split; [exact H2|]. split; [lia|]. split; [exact H3|]. split; [lia|]. split; [exact H5|].
    split; [unfold clean_or_broken; rewrite Wr; exact H6|]. split; [rewrite Er; apply incl_appr, H7|lia].
Qed.

(** ** All lines *)
Definition added_by (os : list op) : str := List.concat (map (fun o => match o with Cat s => s | Catc c => [c] | Catf _ s => s | _ => [] end) os).
Lemma added_app a b : added_by (a ++ b) = added_by a ++ added_by b.
Proof. unfold added_by. rewrite map_app, concat_app. reflexivity. Qed.
Lemma added_chars l : added_by (map Catc l) = l.
Proof. induction l as [|c l IH]; [reflexivity|]. unfold added_by in *. cbn. rewrite IH. reflexivity. Qed.
Lemma added_margin n : added_by (repeat (Cat (lit " ")) n) = repeat " "%char n.
Proof. induction n as [|n IH]; [reflexivity|]. unfold added_by in *. cbn in *. rewrite IH. reflexivity. Qed.

Lemma groups_step W r l rest pss : (1 <= W)%Z -> clean_or_broken W r l rest -> Forall2 (pieces (Z.to_nat W)) (words rest) pss ->
  exists pss', Forall2 (pieces (Z.to_nat W)) (words r) pss' /\ words l ++ List.concat pss = List.concat pss'.
Proof.
  intros HW [C|(S & L & c & r' & -> & I & C)] F.
  - exists (map (fun w => [w]) (words l) ++ pss). split.
    + rewrite C. apply Forall2_app; [|exact F]. pose proof (words_nonempty l [] : ~ In [] (words l)) as N. revert N. generalize (words l). intros wl N. induction wl as [|w ws IH]; constructor.
      * split; [apply app_nil_r|]. split; [intros [J|[]]; apply N; left; exact J|]. split; [reflexivity|constructor].
      * apply IH. intros J. apply N. right. exact J.
    + rewrite concat_app. f_equal. generalize (words l). intros wl. induction wl as [|w ws IH]; [reflexivity|]. cbn. f_equal. exact IH.
  - assert (l <> []) as Nl by (intros ->; cbn in L; lia). destruct (words_broken l c r' S Nl I) as (u & ws & E1 & E2 & Nu & E3).
    rewrite E2 in F. inversion F as [|u' p ws' ps Pu Fs]; subst. exists ((l :: p) :: ps). split.
    + rewrite C, E1. constructor; [|exact Fs]. destruct Pu as (Pc & Pn & _ & Pw). split; [cbn; rewrite Pc; reflexivity|]. split; [intros [J|J]; [congruence|exact (Pn J)]|].
      split; [rewrite app_length; intros Le; destruct u; [congruence|]; cbn in Le; lia|].
      destruct p as [|q p]; [cbn in Pc; congruence|]. change (removelast (l :: q :: p)) with (l :: removelast (q :: p)). constructor; [lia|exact Pw].
    + rewrite E3. reflexivity.
Qed.

Lemma format_ok W lmargin text : (1 <= W)%Z -> forall fuel a r, text = a ++ r -> len r < fuel ->
  exists os lines, format_lines fuel lmargin W text (len a) (len text) = Some (Val os) /\
    shows (Z.to_nat W) r lines /\ printed_lines lmargin lines (added_by os) /\ (r <> [] -> lines <> []) /\
    Forall (fun o => (exists c, o = Catc c /\ In c r) \/ o = Cat [NL] \/ o = Cat (lit " ")) os /\
    len (added_by os) <= (lmargin + 2) * len r.
Proof.
  intros HW. induction fuel as [|fuel IH]; intros a r E L; [lia|]. cbn [format_lines].
  assert (len text = len a + len r) as Lt by (rewrite E, app_length; reflexivity).
  destruct r as [|x r].
  - rewrite (proj2 (Nat.ltb_ge _ _)) by (cbn in Lt; lia). exists [], []. split; [reflexivity|]. split; [|split; [constructor|split; [congruence|split; [constructor|cbn; lia]]]].
    split; [intros l []|]. exists []. split; [constructor|reflexivity].
  - rewrite (proj2 (Nat.ltb_lt _ _)) by (cbn in Lt; lia).
    destruct (round_ok W text a (x :: r) E ltac:(discriminate) HW) as (l & rest & le & -> & H1 & (a' & E') & H3 & H4 & H5 & H6 & H7 & H8 & H9).
    assert ((if le <? len text then len text else le) = len text) as -> by (destruct (le <? len text) eqn:K; [reflexivity|apply Nat.ltb_ge in K; lia]).
    replace (len text - len rest) with (len a') by (rewrite E', app_length; lia).
    destruct (IH a' rest E' ltac:(lia)) as (os & lines & -> & Sh & Pl & Nl & Fo & Lo). cbn [option_map].
    exists ((map Catc l ++ [Cat [NL]] ++ (if le <? len text then repeat (Cat (lit " ")) lmargin else [])) ++ os), (l :: lines).
    split; [reflexivity|]. split; [|split; [|split; [discriminate|split]]].
    + destruct Sh as (S1 & pss & S2 & S3). destruct (groups_step W (x :: r) l rest pss HW H7 S2) as (pss' & P1 & P2).
      split; [intros y [<-|J]; [split; [lia|exact H6]|exact (S1 y J)]|]. exists pss'. split; [exact P1|]. cbn [map List.concat]. rewrite S3. exact P2.
    + rewrite !added_app, added_chars. change (added_by [Cat [NL]]) with [NL]. rewrite <- !app_assoc. destruct (le <? len text) eqn:K.
      * rewrite added_margin. constructor; [right; reflexivity|exact Pl|]. apply Nl, H4. apply Nat.ltb_lt, K.
      * change (added_by []) with (@nil ascii). destruct lines as [|y lines].
        -- inversion Pl as [E0| |]; subst. replace (added_by os) with (@nil ascii) by (symmetry; assumption). apply pl_last.
        -- apply (pl_more lmargin l (y :: lines) 0); [left; reflexivity|exact Pl|discriminate].
    + rewrite !Forall_app. split; [split; [|split]|].
      * apply Forall_forall. intros o J. apply in_map_iff in J. destruct J as (c & <- & J). left. exists c. split; [reflexivity|]. apply H8, in_or_app. left. exact J.
      * constructor; [right; left; reflexivity|constructor].
      * destruct (le <? len text); [|constructor]. apply Forall_forall. intros o J. apply repeat_spec in J. right. right. exact J.
      * eapply Forall_impl; [|exact Fo]. intros o [(c & -> & J)|O]; [|right; exact O]. left. exists c. split; [reflexivity|]. apply H8, in_or_app. right. exact J.
    + rewrite !added_app, added_chars, !app_length. change (added_by [Cat [NL]]) with [NL]. assert (len (added_by (if le <? len text then repeat (Cat (lit " ")) lmargin else [])) <= lmargin) as B.
      { destruct (le <? len text); [rewrite added_margin, repeat_length; lia|cbn; lia]. }
      cbn [List.length] in *. nia.
Qed.
