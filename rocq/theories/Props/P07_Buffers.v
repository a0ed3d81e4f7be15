(** C61, C62: the growable string and the option buffer that all messages are
    made with.  [calls os arg_dstr_create] makes the calls [os] on a new string
    (Model/Dstr.v; UB: an access outside an allocation, a use after free, a
    double free or an integer overflow).  What it should hold is in
    Spec/DstrSpec.v.  The option buffer is in Model/ArgCat.v. *)
From Coq Require Import ZArith Bool List Ascii String Arith Lia.
From Verif.Base Require Import CInt CStr CMem.
From Verif.Model Require Import Dstr ArgCat.
From Verif.Spec Require Import DstrSpec.
From Verif.Proofs Require Import DstrProofs ArgCatProofs.
Import ListNotations.
Open Scope list_scope.
Open Scope nat_scope.

(** ** C61 *)
(** A history that moves from the small buffer to the heap and back. *)
Definition sample_calls : list op :=
  [Cat (lit "libjudger.so: "); Catf 2 (repeat "x"%char 300); Catc "!"; Set_volatile (repeat "y"%char 250);
   Cat (lit "z"); Reset; Set_static (lit "abc"); Catf 20 (lit "def"); Cat (repeat "w"%char 700)].
Example C61_case : Forall well_formed sample_calls /\ below_limit sample_calls /\
  text_of sample_calls = lit "abcdef" ++ repeat "w"%char 700.
Proof.
  split; [|split; [|vm_compute; reflexivity]].
  - repeat constructor; try exact I; try (vm_compute; intuition discriminate);
      unfold no_nul, well_formed; intros H; vm_compute in H; intuition discriminate.
  - intros b a E. unfold sample_calls in E.
    do 10 (destruct b as [|? b]; [vm_compute; reflexivity|
      cbn [app] in E; try discriminate E; injection E as <- E]).
Qed.

(** The string is the concatenation, and everything is freed at the end. *)
Theorem C61_concatenation : forall os, Forall well_formed os -> below_limit os ->
  exists d, calls os arg_dstr_create = Val d /\ arg_dstr_cstr d = Val (text_of os) /\
  exists h, arg_dstr_destroy d = Val h /\ all_freed h.
Proof. exact dstr_concatenates. Qed.
Print Assumptions C61_concatenation.

(** The bound is the right one: beyond it, appending overflows an [int]. *)
Theorem C61_limit_sharp : forall s, (LIMIT < len s <= INT_MAX - 1)%Z -> arg_dstr_cat s arg_dstr_create = UB.
Proof. exact dstr_overflow. Qed.
Print Assumptions C61_limit_sharp.

Example C61_limit_case : exists s, (LIMIT < len s <= INT_MAX - 1)%Z.
Proof. exists (repeat "a"%char (Z.to_nat (LIMIT + 1))). unfold len. rewrite repeat_length, Z2Nat.id; unfold LIMIT, INT_MAX; lia. Qed.

(** ** C62 *)
(** For all names, values and separators, in a buffer of [N + 1] bytes announced
    as [N]: no access outside, and a string of at most [N] bytes is left. *)
Theorem C62_in_bounds : forall N shorts longs value optional separator, 1 <= N ->
  exists t, buffer_text (arg_cat_optionv shorts longs value optional separator (fresh_buffer N)) = Val t /\
  List.length t <= N /\ no_nul t.
Proof.
  intros N so lo d o sep H. destruct (arg_cat_optionv_fine N _ so lo d o sep (fresh_fine N H)) as (s & E & F).
  destruct (fine_text N s F) as (t & T & L). exists t. unfold buffer_text. rewrite E. auto.
Qed.
Print Assumptions C62_in_bounds.

(** The same for the form without alternatives (in the usage line). *)
Theorem C62_short_form_in_bounds : forall N shorts longs value optional, 1 <= N ->
  exists t, buffer_text (arg_cat_option shorts longs value optional (fresh_buffer N)) = Val t /\
  List.length t <= N /\ no_nul t.
Proof.
  intros N so lo d o H. destruct (arg_cat_option_fine N _ so lo d o (fresh_fine N H)) as (s & E & F).
  destruct (fine_text N s F) as (t & T & L). exists t. unfold buffer_text. rewrite E. auto.
Qed.
Print Assumptions C62_short_form_in_bounds.

(** An option with one long name (all options of the judger): the text is
    [--name=value], cut after 198 bytes. *)
Theorem C62_prefix : forall name value, name <> [] -> no_nul name -> ~ In ","%char name -> no_nul value ->
  option_text None (Some name) (Some value) = Val (firstn 198 (lit "--" ++ name ++ lit "=" ++ value)).
Proof. intros name value Ne Nn Nc Nv. apply (long_option 199); auto. lia. Qed.
Print Assumptions C62_prefix.

Theorem C62_flag_prefix : forall name, name <> [] -> no_nul name -> ~ In ","%char name ->
  option_text None (Some name) None = Val (firstn 199 (lit "--" ++ name)).
Proof. intros name Ne Nn Nc. apply (long_flag 199); auto. lia. Qed.
Print Assumptions C62_flag_prefix.

Example C62_case : option_text None (Some (lit "args")) (Some (repeat "v"%char 1000)) =
  Val (lit "--args=" ++ repeat "v"%char 191).
Proof. vm_compute. reflexivity. Qed.

(** With several names (the judger has no such option) the text need not be a
    prefix: a separator may be cut and the next name still appear. *)
Theorem C62_several_names_refuted : exists names t,
  option_text None (Some names) None = Val t /\
  names = repeat "a"%char 196 ++ lit ",b" /\
  ~ exists rest, lit "--" ++ repeat "a"%char 196 ++ lit "|--b" = t ++ rest.
Proof.
  eexists. eexists. split; [|split; [reflexivity|]]; [vm_compute; reflexivity|].
  intros (rest & E). vm_compute in E. discriminate E.
Qed.
Print Assumptions C62_several_names_refuted.
