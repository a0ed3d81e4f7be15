(** JSON texts have one value, by a pushdown machine that reads them from left
    to right. *)
From Coq Require Import ZArith Bool List Ascii String Arith Lia.
From Verif.Base Require Import CInt CStr.
From Verif.Spec Require Import Json.
From Verif.Spec Require IntText.
From Verif.Proofs Require ArgIntProofs.
Import ListNotations.
Open Scope list_scope.
Open Scope nat_scope.

Inductive frame : Type :=
| FArr (done : list json)                                        (* reversed *)
| FKey (done : list (list jchar * json))                         (* a key comes next *)
| FObj (done : list (list jchar * json)) (key : list jchar).     (* a value comes next *)

Inductive esc : Type := NoEsc | Slash | Hex (s : str).

Inductive mode : Type :=
| Expect (close : bool)            (* a value; or the end of the array *)
| Key (close : bool)               (* a key; or the end of the object *)
| Str (acc : list jchar) (e : esc)
| Colon
| Atom (acc : str)
| Done (v : json).

Definition state : Type := mode * list frame.

Definition blankb (c : ascii) : bool := existsb (aeqb c) [" "; "009"; "010"; "013"]%char.
Definition digb (c : ascii) : bool := (48 <=? nat_of_ascii c) && (nat_of_ascii c <=? 57).
Definition letterb (c : ascii) : bool :=
  ((65 <=? nat_of_ascii c) && (nat_of_ascii c <=? 90)) || ((97 <=? nat_of_ascii c) && (nat_of_ascii c <=? 122)).
Definition atomb (c : ascii) : bool := digb c || letterb c || existsb (aeqb c) ["+"; "-"; "."]%char.

(** Values of atoms (of those in the grammar). *)
Definition realb (c : ascii) : bool := existsb (aeqb c) ["."; "e"; "E"]%char.
Definition digits_value (s : str) : Z := fold_left (fun a c => (a * 10 + (Z.of_nat (nat_of_ascii c) - 48))%Z) s 0%Z.
Definition classify (s : str) : json :=
  if existsb letterb s && negb (existsb digb s) then JConst s
  else if existsb realb s then JReal s
  else match s with
       | c :: r => if aeqb c "-"%char then JInt (- digits_value r) else JInt (digits_value s)
       | [] => JInt 0
       end.

Definition hexval (c : ascii) : option Z :=
  let n := Z.of_nat (nat_of_ascii c) in
  if ((48 <=? n) && (n <=? 57))%Z then Some (n - 48)%Z
  else if ((97 <=? n) && (n <=? 102))%Z then Some (n - 87)%Z
  else if ((65 <=? n) && (n <=? 70))%Z then Some (n - 55)%Z
  else None.
Definition hexnum (s : str) : Z :=
  fold_left (fun a c => (a * 16 + match hexval c with Some d => d | None => 0 end)%Z) s 0%Z.

Definition close_string (acc : list jchar) (st : list frame) : option state :=
  match st with
  | FKey ms :: st => Some (Colon, FObj ms acc :: st)
  | _ => Some (Done (JString acc), st)
  end.

Definition after_value (v : json) (st : list frame) (c : ascii) : option state :=
  if blankb c then Some (Done v, st)
  else match st with
  | FArr l :: st =>
      if aeqb c ","%char then Some (Expect false, FArr (v :: l) :: st)
      else if aeqb c "]"%char then Some (Done (JArray (rev (v :: l))), st) else None
  | FObj ms k :: st =>
      if aeqb c ","%char then Some (Key false, FKey ((k, v) :: ms) :: st)
      else if aeqb c "}"%char then Some (Done (JObject (rev ((k, v) :: ms))), st) else None
  | _ => None
  end.

Definition step (x : state) (c : ascii) : option state :=
  let (m, st) := x in
  match m with
  | Expect close =>
      if blankb c then Some (Expect close, st)
      else if aeqb c "["%char then Some (Expect true, FArr [] :: st)
      else if aeqb c "{"%char then Some (Key true, FKey [] :: st)
      else if aeqb c """"%char then Some (Str [] NoEsc, st)
      else if atomb c then Some (Atom [c], st)
      else if close && aeqb c "]"%char then
        match st with FArr [] :: st => Some (Done (JArray []), st) | _ => None end
      else None
  | Key close =>
      if blankb c then Some (Key close, st)
      else if aeqb c """"%char then Some (Str [] NoEsc, st)
      else if close && aeqb c "}"%char then
        match st with FKey [] :: st => Some (Done (JObject []), st) | _ => None end
      else None
  | Colon =>
      if blankb c then Some (Colon, st)
      else if aeqb c ":"%char then Some (Expect false, st) else None
  | Str acc NoEsc =>
      if aeqb c """"%char then close_string acc st
      else if aeqb c "\"%char then Some (Str acc Slash, st)
      else if nat_of_ascii c <? 32 then None
      else Some (Str (acc ++ [Byte c]) NoEsc, st)
  | Str acc Slash =>
      if aeqb c "u"%char then Some (Str acc (Hex []), st)
      else match find (fun p => aeqb (fst p) c) escapes with
           | Some (_, d) => Some (Str (acc ++ [Byte d]) NoEsc, st)
           | None => None
           end
  | Str acc (Hex h) =>
      match hexval c with
      | None => None
      | Some _ =>
          if List.length h =? 3 then Some (Str (acc ++ [Unit_ (hexnum (h ++ [c]))]) NoEsc, st)
          else Some (Str acc (Hex (h ++ [c])), st)
      end
  | Atom acc => if atomb c then Some (Atom (acc ++ [c]), st) else after_value (classify acc) st c
  | Done v => after_value v st c
  end.

Fixpoint run (x : state) (s : str) : option state :=
  match s with
  | [] => Some x
  | c :: s => match step x c with Some y => run y s | None => None end
  end.

Definition finish (x : option state) : option json :=
  match x with
  | Some (Done v, []) => Some v
  | Some (Atom acc, []) => Some (classify acc)
  | _ => None
  end.

Definition start : state := (Expect false, []).

Lemma run_app x s t : run x (s ++ t) = match run x s with Some y => run y t | None => None end.
Proof. revert x. induction s as [|c s IH]; intros x; cbn; [reflexivity|]. destruct (step x c); auto. Qed.

Lemma run_app_to x s y t : run x s = Some y -> run x (s ++ t) = run y t.
Proof. intros H. rewrite run_app, H. reflexivity. Qed.

(** ** Blanks *)
Lemma blank_c c : In c [" "; "009"; "010"; "013"]%char -> blankb c = true.
Proof. cbn. intuition (subst; reflexivity). Qed.

Ltac blanks H := let c := fresh "c" in let s := fresh "s" in let B := fresh "B" in
  induction H as [|c s B H IH]; [reflexivity|]; apply blank_c in B; cbn [run step]; rewrite B; exact IH.
Lemma blank_expect w b st : blank w -> run (Expect b, st) w = Some (Expect b, st).
Proof. intros H. blanks H. Qed.
Lemma blank_key w b st : blank w -> run (Key b, st) w = Some (Key b, st).
Proof. intros H. blanks H. Qed.
Lemma blank_colon w st : blank w -> run (Colon, st) w = Some (Colon, st).
Proof. intros H. blanks H. Qed.
Lemma blank_done v w st : blank w -> run (Done v, st) w = Some (Done v, st).
Proof. intros H. induction H as [|c s B H IH]; [reflexivity|]. apply blank_c in B. cbn [run step]. unfold after_value. rewrite B. exact IH. Qed.

(** ** Strings *)
Lemma digit16 c d : IntText.digit 16 c d -> hexval c = Some d.
Proof.
  intros [R H]. assert (d = 0 \/ d = 1 \/ d = 2 \/ d = 3 \/ d = 4 \/ d = 5 \/ d = 6 \/ d = 7 \/ d = 8 \/ d = 9 \/ d = 10 \/ d = 11 \/
    d = 12 \/ d = 13 \/ d = 14 \/ d = 15)%Z as D by lia.
  repeat (destruct D as [->|D]; [cbn in H; destruct H as [H|H]; injection H as <-; reflexivity|]).
  subst. cbn in H. destruct H as [H|H]; injection H as <-; reflexivity.
Qed.

Lemma numeral_hex s n : IntText.numeral 16 s n -> hexnum s = n /\ Forall (fun c => exists d, hexval c = Some d) s.
Proof.
  induction 1 as [c d D|s v c d N [IH F] D].
  - apply digit16 in D. split; [cbn; rewrite D; lia|]. eauto.
  - apply digit16 in D. split.
    + unfold hexnum in *. rewrite fold_left_app. cbn. rewrite IH, D. reflexivity.
    + apply Forall_app. split; eauto.
Qed.

Lemma hex_run h n acc st : hex4 h n -> run (Str acc (Hex []), st) h = Some (Str (acc ++ [Unit_ n]) NoEsc, st).
Proof.
  intros [L N]. apply numeral_hex in N. destruct N as [N F].
  destruct h as [|a [|b [|c [|d [|]]]]]; try discriminate L.
  rewrite !Forall_cons_iff in F. destruct F as ((da & Ea) & (db & Eb) & (dc & Ec) & (dd & Ed) & _).
  unfold run, step. rewrite Ea. cbn [List.length Nat.eqb app]. rewrite Eb. cbn [List.length Nat.eqb app].
  rewrite Ec. cbn [List.length Nat.eqb app]. rewrite Ed. cbn [List.length Nat.eqb app]. rewrite N. reflexivity.
Qed.

Lemma aeqb_neq c d : c <> d -> aeqb c d = false.
Proof. intros N. unfold aeqb. apply Ascii.eqb_neq. exact N. Qed.

Lemma chars_run s l : chars s l -> forall acc st, run (Str acc NoEsc, st) s = Some (Str (acc ++ l) NoEsc, st).
Proof.
  induction 1 as [|c s l A B C H IH|e c s l I H IH|h n s l X H IH]; intros acc st.
  - rewrite app_nil_r. reflexivity.
  - cbn [run step]. rewrite (aeqb_neq _ _ B), (aeqb_neq _ _ C). destruct (Nat.ltb_spec (nat_of_ascii c) 32); [lia|].
    rewrite IH, <- app_assoc. reflexivity.
  - cbn [run]. assert (step (Str acc NoEsc, st) "\"%char = Some (Str acc Slash, st)) as -> by reflexivity.
    assert (step (Str acc Slash, st) e = Some (Str (acc ++ [Byte c]) NoEsc, st)) as ->.
    { cbn in I. repeat (destruct I as [I|I]; [injection I as <- <-; reflexivity|]). destruct I. }
    rewrite IH, <- app_assoc. reflexivity.
  - change (lit "\u" ++ h ++ s) with ("\"%char :: "u"%char :: (h ++ s)). cbn [run].
    assert (step (Str acc NoEsc, st) "\"%char = Some (Str acc Slash, st)) as -> by reflexivity.
    assert (step (Str acc Slash, st) "u"%char = Some (Str acc (Hex []), st)) as -> by reflexivity.
    rewrite (run_app_to _ _ _ _ (hex_run h n acc st X)), IH, <- app_assoc. reflexivity.
Qed.

Lemma string_run s l m st : quoted_string s l -> (m = Key true \/ m = Key false \/ m = Expect true \/ m = Expect false) ->
  run (m, st) s = close_string l st.
Proof.
  intros (t & -> & C) M. change (lit """" ++ t ++ lit """") with (""""%char :: (t ++ lit """")). cbn [run].
  assert (step (m, st) """"%char = Some (Str [] NoEsc, st)) as -> by (destruct M as [->|[->|[->| ->]]]; reflexivity).
  rewrite (run_app_to _ _ _ _ (chars_run t l C [] st)). cbn [run step lit list_ascii_of_string app].
  change (aeqb """" """") with true. cbv iota. destruct (close_string l st); reflexivity.
Qed.

(** ** Atoms *)
Definition is_atom (s : str) (v : json) : Prop := s <> [] /\ forallb atomb s = true /\ classify s = v.

Lemma atoms_run s acc st : forallb atomb s = true -> run (Atom acc, st) s = Some (Atom (acc ++ s), st).
Proof.
  revert acc. induction s as [|c s IH]; intros acc F; [rewrite app_nil_r; reflexivity|].
  cbn [forallb] in F. apply andb_prop in F. destruct F as [A F]. cbn [run step]. rewrite A, IH by exact F.
  rewrite <- app_assoc. reflexivity.
Qed.

Lemma atom_special c : atomb c = true -> blankb c = false /\ aeqb c "[" = false /\ aeqb c "{" = false /\ aeqb c """" = false.
Proof. destruct c as [[] [] [] [] [] [] [] []]; cbn; intros H; try discriminate H; auto. Qed.

Lemma atom_run s v b st : is_atom s v -> run (Expect b, st) s = Some (Atom s, st).
Proof.
  intros (N & F & _). destruct s as [|c s]; [contradiction|]. cbn [forallb] in F. apply andb_prop in F. destruct F as [A F].
  destruct (atom_special c A) as (E1 & E2 & E3 & E4). cbn [run step]. rewrite E1, E2, E3, E4, A.
  apply (atoms_run s [c] st F).
Qed.

Lemma dig_digb c : dig c -> digb c = true.
Proof. unfold dig, digb. intros [A B]. apply andb_true_intro. split; apply Nat.leb_le; assumption. Qed.
Lemma dig_facts c : dig c -> atomb c = true /\ digb c = true /\ letterb c = false /\ realb c = false /\ c <> "-"%char.
Proof.
  intros D. apply dig_digb in D. revert D. destruct c as [[] [] [] [] [] [] [] []]; cbn; intros H; try discriminate H; repeat split; discriminate.
Qed.

Lemma digit10 c d : IntText.digit 10 c d -> dig c /\ (Z.of_nat (nat_of_ascii c) - 48 = d)%Z.
Proof.
  intros [R H]. assert (d = 0 \/ d = 1 \/ d = 2 \/ d = 3 \/ d = 4 \/ d = 5 \/ d = 6 \/ d = 7 \/ d = 8 \/ d = 9)%Z as D by lia.
  unfold dig.
  repeat (destruct D as [->|D]; [cbn in H; destruct H as [H|H]; injection H as <-; cbn; lia|]).
  subst. cbn in H. destruct H as [H|H]; injection H as <-; cbn; lia.
Qed.
Lemma numeral_dec s n : IntText.numeral 10 s n -> digs s /\ digits_value s = n.
Proof.
  induction 1 as [c d D|s v c d N [[Ne F] IH] D].
  - apply digit10 in D. destruct D as [D E]. split; [split; [discriminate|auto]|]. cbn. exact E.
  - apply digit10 in D. destruct D as [D E]. split; [split; [destruct s; discriminate|apply Forall_app; auto]|].
    unfold digits_value in *. rewrite fold_left_app, IH. cbn. rewrite E. reflexivity.
Qed.
Lemma int_part_digs s n : int_part s n -> digs s /\ digits_value s = n.
Proof.
  intros [|c s' m D N X]; [|apply numeral_dec; exact X]. split; [|reflexivity]. split; [discriminate|].
  constructor; [unfold dig; cbn; lia|constructor].
Qed.

Lemma digs_forall (P : ascii -> bool) s : digs s -> (forall c, dig c -> P c = true) -> forallb P s = true.
Proof. intros [_ F] H. apply forallb_forall. intros c I. rewrite Forall_forall in F. auto. Qed.
Lemma digs_none (P : ascii -> bool) s : digs s -> (forall c, dig c -> P c = false) -> existsb P s = false.
Proof.
  intros [_ F] H. destruct (existsb P s) eqn:E; [|reflexivity]. apply existsb_exists in E. destruct E as (c & I & T).
  rewrite Forall_forall in F. rewrite (H c (F c I)) in T. discriminate.
Qed.
Lemma digs_some s : digs s -> existsb digb s = true.
Proof. intros [N F]. destruct s as [|c s]; [contradiction|]. apply Forall_cons_iff in F. cbn. rewrite (dig_digb c) by apply F. reflexivity. Qed.

Lemma digs_atom s : digs s -> forallb atomb s = true.
Proof. intros D. apply digs_forall; [exact D|]. intros c H. apply (dig_facts c H). Qed.

Lemma frac_atom f : f = [] \/ fraction f -> forallb atomb f = true.
Proof. intros [->|[s D]]; [reflexivity|]. cbn. apply digs_atom. exact D. Qed.
Lemma expo_atom e : e = [] \/ exponent e -> forallb atomb e = true.
Proof.
  intros [->|[e' sg s Ie Is D]]; [reflexivity|]. rewrite !forallb_app, (digs_atom s D).
  cbn in Ie, Is. repeat (destruct Ie as [<-|Ie]; [repeat (destruct Is as [<-|Is]; [reflexivity|]); destruct Is|]). destruct Ie.
Qed.
Lemma real_marked f e : (f = [] \/ fraction f) -> (e = [] \/ exponent e) -> f ++ e <> [] -> existsb realb (f ++ e) = true.
Proof.
  intros [->|[s D]] He N; [|reflexivity]. destruct He as [->|[e' sg s Ie Is D]]; [contradiction|].
  cbn in Ie. repeat (destruct Ie as [<-|Ie]; [reflexivity|]). destruct Ie.
Qed.

Lemma number_atom s v : number s v -> is_atom s v.
Proof.
  intros [s' n I|s' n I|sg s' n f e Is I F E N].
  - destruct (int_part_digs _ _ I) as [D V]. split; [apply D|]. split; [apply digs_atom; exact D|].
    unfold classify. rewrite (digs_none letterb s' D) by (intros c H; apply (dig_facts c H)). cbn [andb].
    rewrite (digs_none realb s' D) by (intros c H; apply (dig_facts c H)).
    destruct s' as [|c r]; [destruct D; contradiction|]. destruct D as [_ D]. apply Forall_cons_iff in D. destruct D as [D _].
    destruct (dig_facts c D) as (_ & _ & _ & _ & M).
    rewrite (aeqb_neq _ _ M).
    rewrite V. reflexivity.
  - destruct (int_part_digs _ _ I) as [D V]. split; [discriminate|].
    split; [cbn; apply digs_atom; exact D|].
    unfold classify. change (lit "-" ++ s') with ("-"%char :: s'). cbn [existsb].
    rewrite (digs_none letterb s' D) by (intros c H; apply (dig_facts c H)). cbn [andb orb].
    rewrite (digs_none realb s' D) by (intros c H; apply (dig_facts c H)). change (letterb "-") with false. change (realb "-") with false.
    cbn [orb andb]. rewrite V. reflexivity.
  - destruct (int_part_digs _ _ I) as [D V].
    assert (forallb atomb sg = true) as As by (cbn in Is; destruct Is as [<-|[<-|[]]]; reflexivity).
    split; [destruct sg; [|discriminate]; destruct s'; [destruct D; contradiction|discriminate]|].
    split; [rewrite !forallb_app, As, (digs_atom s' D), (frac_atom f F), (expo_atom e E); reflexivity|].
    unfold classify. rewrite !existsb_app, (digs_some s' D), !orb_true_r. cbn [negb orb]. rewrite andb_false_r.
    rewrite <- (existsb_app realb f e), (real_marked f e F E N), !orb_true_r. reflexivity.
Qed.

Lemma const_atom py s : In s (constants py) -> is_atom (lit s) (JConst (lit s)).
Proof.
  intros I. destruct py; cbn in I; repeat (destruct I as [<-|I]; [split; [discriminate|split; reflexivity]|]); destruct I.
Qed.

(** ** The grammar *)
(** After a value: finished, or an atom that is finished by what follows. *)
Definition ends (st : list frame) (v : json) (x : option state) : Prop :=
  x = Some (Done v, st) \/ exists acc, x = Some (Atom acc, st) /\ classify acc = v.

Lemma not_atom_blank c : blankb c = true -> atomb c = false.
Proof. destruct c as [[] [] [] [] [] [] [] []]; cbn; intros H; try discriminate H; reflexivity. Qed.

(** Blanks and then a delimiter. *)
Lemma ends_then st v x w c s : ends st v x -> blank w -> atomb c = false ->
  match x with Some y => run y (w ++ c :: s) | None => None end =
  match after_value v st c with Some y => run y s | None => None end.
Proof.
  intros [->|(acc & -> & <-)] B A.
  - rewrite (run_app_to _ _ _ _ (blank_done v w st B)). reflexivity.
  - destruct B as [|d w D B]; [cbn [app run step]; rewrite A; reflexivity|].
    apply blank_c in D. cbn [app run step]. rewrite (not_atom_blank d D). unfold after_value at 1. rewrite D.
    rewrite (run_app_to _ _ _ _ (blank_done (classify acc) w st B)). reflexivity.
Qed.

Lemma grammar py :
  (forall s v, value py s v -> forall b st, ends st v (run (Expect b, st) s) \/ (exists l ms st', v = JString l /\ st = FKey ms :: st')) /\
  (forall s l, elements py s l -> forall b st done, 
     run (Expect b, FArr done :: st) (s ++ lit "]") = Some (Done (JArray (rev done ++ l)), st)) /\
  (forall s l, members py s l -> forall b st done,
     run (Key b, FKey done :: st) (s ++ lit "}") = Some (Done (JObject (rev done ++ l)), st)).
Proof.
  apply (json_grammar_ind py); intros.
  - left. right. exists (lit s). destruct (const_atom py s H) as (N & F & E). split; [|exact E].
    apply (atom_run _ (JConst (lit s))). split; [exact N|split; [exact F|exact E]].
  - left. right. exists s. pose proof (number_atom s v H) as A. split; [apply (atom_run _ v); exact A|apply A].
  - rewrite (string_run s l _ st H) by (destruct b; auto). destruct st as [|[d|d|d k] st]; cbn [close_string].
    + left. left. reflexivity.
    + left. left. reflexivity.
    + right. eauto 6.
    + left. left. reflexivity.
  - left. left. change (lit "[" ++ w ++ lit "]") with ("["%char :: (w ++ lit "]")). cbn [run].
    assert (step (Expect b, st) "["%char = Some (Expect true, FArr [] :: st)) as -> by reflexivity.
    rewrite (run_app_to _ _ _ _ (blank_expect w true (FArr [] :: st) H)). reflexivity.
  - left. left. change (lit "[" ++ s ++ lit "]") with ("["%char :: (s ++ lit "]")). cbn [run].
    assert (step (Expect b, st) "["%char = Some (Expect true, FArr [] :: st)) as -> by reflexivity.
    apply (H0 true st []).
  - left. left. change (lit "{" ++ w ++ lit "}") with ("{"%char :: (w ++ lit "}")). cbn [run].
    assert (step (Expect b, st) "{"%char = Some (Key true, FKey [] :: st)) as -> by reflexivity.
    rewrite (run_app_to _ _ _ _ (blank_key w true (FKey [] :: st) H)). reflexivity.
  - left. left. change (lit "{" ++ s ++ lit "}") with ("{"%char :: (s ++ lit "}")). cbn [run].
    assert (step (Expect b, st) "{"%char = Some (Key true, FKey [] :: st)) as -> by reflexivity.
    apply (H0 true st []).
  - rewrite <- !app_assoc. rewrite (run_app_to _ _ _ _ (blank_expect w1 b (FArr done :: st) H)), run_app.
    destruct (H1 b (FArr done :: st)) as [E|(l0 & ms & st' & _ & X)]; [|discriminate X].
    change (lit "]") with ("]"%char :: []). rewrite (ends_then _ _ _ w2 "]"%char [] E H2) by reflexivity.
    cbn. reflexivity.
  - rewrite <- !app_assoc. rewrite (run_app_to _ _ _ _ (blank_expect w1 b (FArr done :: st) H)), run_app.
    destruct (H1 b (FArr done :: st)) as [E|(l0 & ms & st' & _ & X)]; [|discriminate X].
    change (lit "," ++ s' ++ lit "]") with (","%char :: (s' ++ lit "]")).
    rewrite (ends_then _ _ _ w2 ","%char _ E H2) by reflexivity.
    change (after_value v (FArr done :: st) ",") with (Some (Expect false, FArr (v :: done) :: st)).
    cbv iota. rewrite (H4 false st (v :: done)). cbn [rev]. rewrite <- app_assoc. reflexivity.
  - rewrite <- !app_assoc. rewrite (run_app_to _ _ _ _ (blank_key w1 b (FKey done :: st) H)), run_app.
    rewrite (string_run k kl _ _ H0) by (destruct b; auto). cbn [close_string].
    rewrite (run_app_to _ _ _ _ (blank_colon w2 (FObj done kl :: st) H1)).
    change (lit ":" ++ w3 ++ s ++ w4 ++ lit "}") with (":"%char :: (w3 ++ s ++ w4 ++ lit "}")). cbn [run].
    change (step (Colon, FObj done kl :: st) ":"%char) with (Some (Expect false, FObj done kl :: st)). cbv iota.
    rewrite (run_app_to _ _ _ _ (blank_expect w3 false (FObj done kl :: st) H2)), run_app.
    destruct (H4 false (FObj done kl :: st)) as [E|(l0 & ms & st' & _ & X)]; [|discriminate X].
    change (lit "}") with ("}"%char :: []). rewrite (ends_then _ _ _ w4 "}"%char [] E H5) by reflexivity.
    cbn. reflexivity.
  - rewrite <- !app_assoc. rewrite (run_app_to _ _ _ _ (blank_key w1 b (FKey done :: st) H)), run_app.
    rewrite (string_run k kl _ _ H0) by (destruct b; auto). cbn [close_string].
    rewrite (run_app_to _ _ _ _ (blank_colon w2 (FObj done kl :: st) H1)).
    change (lit ":" ++ w3 ++ s ++ w4 ++ lit "," ++ s' ++ lit "}") with (":"%char :: (w3 ++ s ++ w4 ++ lit "," ++ s' ++ lit "}")). cbn [run].
    change (step (Colon, FObj done kl :: st) ":"%char) with (Some (Expect false, FObj done kl :: st)). cbv iota.
    rewrite (run_app_to _ _ _ _ (blank_expect w3 false (FObj done kl :: st) H2)), run_app.
    destruct (H4 false (FObj done kl :: st)) as [E|(l0 & ms & st' & _ & X)]; [|discriminate X].
    change (lit "," ++ s' ++ lit "}") with (","%char :: (s' ++ lit "}")).
    rewrite (ends_then _ _ _ w4 ","%char _ E H5) by reflexivity.
    change (after_value v (FObj done kl :: st) ",") with (Some (Key false, FKey ((kl, v) :: done) :: st)).
    cbv iota. rewrite (H7 false st ((kl, v) :: done)). cbn [rev]. rewrite <- app_assoc. reflexivity.
Qed.

Theorem json_read py s v : json_text py s v -> finish (run start s) = Some v.
Proof.
  intros (w1 & t & w2 & -> & B1 & V & B2). unfold start.
  rewrite (run_app_to _ _ _ _ (blank_expect w1 false [] B1)), run_app.
  destruct (proj1 (grammar py) t v V false []) as [[E|(acc & E & C)]|(l0 & ms & st' & _ & X)]; [| |discriminate X].
  - rewrite E. rewrite (blank_done v w2 [] B2). reflexivity.
  - rewrite E. destruct B2 as [|d w D B]; [cbn; rewrite C; reflexivity|].
    apply blank_c in D. cbn [run step]. rewrite (not_atom_blank d D). unfold after_value at 1. rewrite D, C.
    rewrite (blank_done v w [] B). reflexivity.
Qed.

Corollary json_unique py s v v' : json_text py s v -> json_text py s v' -> v = v'.
Proof. intros A B. apply json_read in A, B. congruence. Qed.
