(** What a call of the Python binding returns. *)
From Coq Require Import ZArith Bool List Ascii String Arith Lia.
From Verif.Base Require Import CInt CStr.
From Verif.Model Require Import Config Seccomp Child ArgInt Argtable Main Messages Python PythonDecode.
From Verif.Spec Require Import SandboxSpec IntText CmdLine Invocation MessageSpec PythonSpec.
From Verif.Spec Require Json Utf8 OutputSpec.
From Verif.Proofs Require Import ArgIntProofs DecimalFacts InvocationProofs MainProofs InvocationClaims CommandClaims MessageProofs PythonProofs PythonClaims PythonTypes.
From Verif.Proofs Require JsonProofs OutputProofs.
Import ListNotations.
Open Scope list_scope.
Open Scope nat_scope.

(** ** ASCII *)
Definition seven (s : str) : Prop := Forall (fun c => nat_of_ascii c <= 127) s.
Lemma seven_utf8 s : seven s -> Utf8.utf8 s.
Proof. induction 1; [constructor|apply Utf8.utf8_1; assumption]. Qed.
Lemma seven_lit s : forallb (fun c => nat_of_ascii c <=? 127) s = true -> seven s.
Proof. intros F. apply Forall_forall. intros c I. rewrite forallb_forall in F. apply Nat.leb_le, F, I. Qed.
Lemma seven_app s t : seven s -> seven t -> seven (s ++ t).
Proof. intros A B. apply Forall_app. auto. Qed.

Lemma digit_seven c d : digit 10 c d -> nat_of_ascii c <= 127.
Proof.
  intros D. apply digit_of_complete in D; [|unfold base_ok; auto].
  destruct c as [[] [] [] [] [] [] [] []]; try (vm_compute in D; discriminate D); vm_compute; lia.
Qed.
Lemma fmt_d_seven z : seven (fmt_d z).
Proof.
  destruct (decimal_signed z) as (sg & s & ds & v & E & S & N & _). change (fmt_d z) with (decimal z). rewrite E. apply seven_app.
  - destruct S as [[-> _]|[-> _]]; apply seven_lit; reflexivity.
  - clear E. induction N as [c d D|t w c d N IH D].
    + constructor; [exact (digit_seven c d D)|constructor].
    + apply seven_app; [exact IH|]. constructor; [exact (digit_seven c d D)|constructor].
Qed.
Lemma result_seven r : seven (print_result r).
Proof.
  unfold print_result, json_field. repeat apply seven_app; try apply fmt_d_seven; apply seven_lit; reflexivity.
Qed.
Lemma blank_seven s : Json.blank s -> seven s.
Proof. intros B. eapply Forall_impl; [|exact B]. intros c I. cbn in I. repeat (destruct I as [<-|I]; [vm_compute; lia|]). destruct I. Qed.

Lemma json_blank py s t v : Json.blank s -> Json.json_text py t v -> Json.json_text py (s ++ t) v.
Proof.
  intros B (w & u & w' & -> & W & V & W'). exists (s ++ w), u, w'. rewrite <- !app_assoc. split; [reflexivity|].
  split; [apply Forall_app; auto|]. auto.
Qed.

Lemma blank_dec s : Json.blank s \/ ~ Json.blank s.
Proof.
  destruct (forallb JsonProofs.blankb s) eqn:E; [left; apply OutputProofs.blank_of, E|right].
  intros B. apply not_true_iff_false in E. apply E. apply forallb_forall. intros c I. unfold Json.blank in B. rewrite Forall_forall in B.
  specialize (B c I). cbn in B. repeat (destruct B as [<-|B]; [reflexivity|]). destruct B.
Qed.

(** ** Decoding *)
Lemma decodes_result own err r o :
  decodes (own ++ print_result r) err o <->
  (err = [] /\ Json.blank own /\ o = Returns (OutputSpec.result_object r)) \/ ((err <> [] \/ ~ Json.blank own) /\ o = Raises).
Proof.
  split.
  - intros [N|v E U J|E N].
    + right. auto.
    + left. destruct (OutputProofs.only_blank_before true own r v J) as [B ->]. auto.
    + right. split; [right|reflexivity]. intros B. apply N. split.
      * apply seven_utf8, seven_app; [apply blank_seven, B|apply result_seven].
      * exists (OutputSpec.result_object r). apply json_blank; [exact B|apply OutputProofs.result_text].
  - intros [(-> & B & ->)|[N ->]].
    + apply decodes_value; [reflexivity|apply seven_utf8, seven_app; [apply blank_seven, B|apply result_seven]|].
      apply json_blank; [exact B|apply OutputProofs.result_text].
    + destruct err as [|c err]; [|apply decodes_error; discriminate]. destruct N as [N|N]; [congruence|].
      apply decodes_bad; [reflexivity|]. intros (_ & v & J). apply N. exact (proj1 (OutputProofs.only_blank_before true own r v J)).
Qed.

Lemma decodes_unique out err o o' : decodes out err o -> decodes out err o' -> o = o'.
Proof.
  intros [N|v E U J|E N] [N'|v' E' U' J'|E' N']; try reflexivity; try contradiction.
  - f_equal. exact (JsonProofs.json_unique true _ _ _ J J').
  - destruct N'. eauto.
  - destruct N. eauto.
Qed.

Lemma decodes_report fs err o : fs <> [] -> (decodes (report fs) err o <-> o = Raises).
Proof.
  intros N. assert (forall v, ~ Json.json_text true (report fs) v) as J.
  { intros v. rewrite <- (app_nil_r (report fs)). apply OutputProofs.report_not_json, N. }
  split.
  - intros [X|v E U X|E X]; [reflexivity|destruct (J v X)|reflexivity].
  - intros ->. destruct err as [|c err]; [|apply decodes_error; discriminate]. apply decodes_bad; [reflexivity|].
    intros (_ & v & X). exact (J v X).
Qed.

Lemma first_ten_some fs : fs <> [] -> first_ten fs <> [].
Proof.
  intros N. unfold first_ten. destruct (List.length fs <=? 10); [exact N|]. destruct (firstn 9 fs); discriminate.
Qed.

(** ** Calls *)
Section Call.
Variables (posix : bool) (run : config -> result) (vars : locals) (p : py_call).
Hypothesis P : passes vars p.

Theorem returns_result own err : valid p -> exists c, asks_for p c /\ forall o,
  python_run posix run own err vars o <->
  (err = [] /\ Json.blank own /\ o = Returns (OutputSpec.result_object (run c))) \/ ((err <> [] \/ ~ Json.blank own) /\ o = Raises).
Proof.
  intros V. destruct (py_valid posix vars p P V) as (argv & c & E & D & A). exists c. split; [exact A|]. intros o. split.
  - intros [X|argv' a text o' E' D' T X]; [congruence|]. assert (argv' = argv) as -> by congruence.
    pose proof (does_unique _ _ _ _ D D') as Y. injection Y as <-. injection T as <-. apply decodes_result, X.
  - intros H. apply (python_judged posix run own err vars argv (Run c) (print_result (run c)) o E D eq_refl). apply decodes_result, H.
Qed.

Definition all_short : Prop := forall argv, command vars = Some argv -> Forall short argv.

Theorem invalid_raises err : ~ valid p -> List.length (y_args p) <> 255 -> all_short ->
  forall o, python_run posix run [] err vars o <-> o = Raises.
Proof.
  intros N L Sh. destruct (command vars) as [argv|] eqn:E.
  2:{ intros o. split; [intros [X|argv' a text o' E' D' T X]; [reflexivity|congruence]|]. intros ->. apply python_value_error, E. }
  pose proof E as E0. apply (py_started vars p P) in E0. destruct E0 as [C Ea]. pose proof (proj2 (words_clean p) C) as W.
  pose proof (py_reads posix p) as R. pose proof (items_harmless p) as H.
  destruct (occurs_exists _ _ _ _ R H) as (acc & fs & O).
  destruct (good_occurs _ acc fs (reads_good _ _ _ _ R) H O) as [Wf _].
  assert (all_faults acc fs [] <> []) as F.
  { intros F. apply (faultless_iff _ acc fs [] Wf O) in F. apply faultless_py in F. destruct N. apply valid_iff.
    split; [exact F|]. split; [exact C|]. destruct F as (_ & _ & _ & _ & F & _). lia. }
  specialize (Sh argv E). rewrite Ea in Sh. apply Forall_cons_iff in Sh. destruct Sh as [_ Sh].
  destruct (error_report run posix judger_path _ _ [] acc fs W Sh R H O (py_no_help p) (py_no_version p) F) as (a & D & _ & T).
  { intros c I. apply in_map_iff in I. destruct I as (t & X & _). discriminate X. }
  rewrite <- Ea in D. intros o. rewrite <- (decodes_report _ err o (first_ten_some _ F)). split.
  - intros [X|argv' a' text o' E' D' T' X]; [congruence|]. assert (argv' = argv) as -> by congruence.
    pose proof (does_unique _ _ _ _ D D') as Y. injection Y as <-. rewrite T in T'. injection T' as <-. exact X.
  - intros X. exact (python_judged posix run [] err vars argv a _ o E D T X).
Qed.
End Call.

Lemma py_run_unique posix run own err vars o o' : python_run posix run own err vars o -> python_run posix run own err vars o' -> o = o'.
Proof.
  intros [E|argv a t o1 E D T X] [E'|argv' a' t' o2 E' D' T' X']; try congruence.
  assert (argv' = argv) as -> by congruence. pose proof (does_unique _ _ _ _ D D') as Y. injection Y as <-. rewrite T in T'. injection T' as <-.
  exact (decodes_unique _ _ _ _ X X').
Qed.

Theorem decoding out err o :
  decodes out err o ->
  (err <> [] -> o = Raises) /\
  (forall v, o = Returns v <-> err = [] /\ Utf8.utf8 out /\ Json.json_text true out v) /\
  (forall o', decodes out err o' -> o' = o).
Proof.
  intros D. split; [|split].
  - intros N. destruct D; [reflexivity|contradiction|reflexivity].
  - intros v. split.
    + intros ->. inversion D. auto.
    + intros (E & U & J). exact (decodes_unique _ _ _ _ D (decodes_value out err v E U J)).
  - intros o' D'. exact (decodes_unique _ _ _ _ D' D).
Qed.

Lemma ptr_inj xs ys : forall n m, map Ptr xs ++ Null :: repeat Uninit n = map Ptr ys ++ Null :: repeat Uninit m -> xs = ys.
Proof.
  revert ys. induction xs as [|x xs IH]; intros [|y ys] n m E; cbn in E; try discriminate; [reflexivity|].
  injection E as -> E. f_equal. exact (IH ys n m E).
Qed.
Lemma vector_inj xs ys a : vector xs a -> vector ys a -> xs = ys.
Proof. unfold vector. intros -> E. exact (ptr_inj _ _ _ _ E). Qed.

Theorem asks_injective p p' c :
  valid p -> valid p' -> asks_for p c -> asks_for p' c ->
  y_max_cpu_time p = y_max_cpu_time p' /\ y_max_real_time p = y_max_real_time p' /\ y_max_memory p = y_max_memory p' /\
  y_max_output_size p = y_max_output_size p' /\ y_max_process_number p = y_max_process_number p' /\
  y_exe_path p = y_exe_path p' /\ y_input_path p = y_input_path p' /\ y_output_path p = y_output_path p' /\
  y_error_path p = y_error_path p' /\ y_log_path p = y_log_path p' /\ y_args p = y_args p' /\ y_env p = y_env p'.
Proof.
  intros _ _ (A1 & A2 & A3 & A4 & A5 & A6 & A7 & A8 & A9 & A10 & A11 & A12 & A13 & A14 & A15 & A16 & A17)
    (B1 & B2 & B3 & B4 & B5 & B6 & B7 & B8 & B9 & B10 & B11 & B12 & B13 & B14 & B15 & B16 & B17).
  pose proof (vector_inj _ _ _ A13 B13) as V1. pose proof (vector_inj _ _ _ A14 B14) as V2. injection V1 as V0 V1.
  repeat split; congruence.
Qed.

Theorem five_unlimited posix vars p :
  passes vars p -> forall argv c, command vars = Some argv -> does posix argv (Val (Run c)) ->
  (y_max_cpu_time p = -1 -> max_cpu_time c = UNLIMITED /\ wanted_limit c RCpu = None)%Z /\
  (y_max_real_time p = -1 -> max_real_time c = UNLIMITED)%Z /\
  (y_max_memory p = -1 -> max_memory c = UNLIMITED /\ wanted_limit c RAs = None)%Z /\
  (y_max_process_number p = -1 -> wanted_limit c RNproc = None)%Z /\
  (y_max_output_size p = -1 -> wanted_limit c RFsize = None)%Z.
Proof.
  intros P argv c E D. destruct (py_only posix vars p P argv c E D) as (_ & A1 & A2 & A3 & _ & A5 & A6 & _).
  unfold wanted_limit. rewrite A1, A2, A3, A5, A6.
  split; [intros ->; split; reflexivity|]. split; [intros ->; reflexivity|]. split; [intros ->; split; reflexivity|].
  split; intros ->; reflexivity.
Qed.

Theorem four_defaults posix vars p :
  passes vars p -> forall argv c, command vars = Some argv -> does posix argv (Val (Run c)) ->
  (y_max_stack p = -1 -> wanted_limit c RStack = Some 16777216)%Z /\
  (y_uid p = -1 -> uid c = 65534)%Z /\ (y_gid p = -1 -> gid c = 65534)%Z /\
  (y_memory_limit_check_only p = -1 -> memory_limit_check_only c = 0)%Z.
Proof.
  intros P argv c E D.
  destruct (py_only posix vars p P argv c E D) as (_ & _ & _ & _ & A4 & _ & _ & A7 & _ & _ & _ & _ & _ & _ & _ & _ & A16 & A17).
  unfold wanted_limit. rewrite A4, A7, A16, A17. repeat split; intros ->; reflexivity.
Qed.
