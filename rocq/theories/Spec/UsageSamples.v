(** A table, errors and words for C81, C82 and C83. *)
From Coq Require Import ZArith Bool List Ascii String Arith.
From Verif.Base Require Import CInt CStr Tm.
From Verif.Model Require Import ArgInt Argtable Wrap ArgDate ArgObject Trex Usage.
From Verif.Spec Require Import WrapSpec UsageSpec.
Import ListNotations.
Open Scope list_scope.
Open Scope Z_scope.

Definition opt_verbose : named := {| n_shorts := lit "vw"; n_longs := [lit "verbose"; lit "loud"]; n_value := None; n_optional := false; n_help := Some (lit "say more") |}.
Definition opt_x : named := {| n_shorts := lit "x"; n_longs := []; n_value := None; n_optional := false; n_help := None |}.
Definition opt_level : named := {| n_shorts := lit "l"; n_longs := [lit "level"]; n_value := Some (lit "<n>"); n_optional := true; n_help := Some (lit "how much") |}.
Definition opt_date : named := {| n_shorts := []; n_longs := [lit "on"]; n_value := Some (lit "%Y-%m-%d"); n_optional := false; n_help := Some (lit "the day") |}.
Definition opt_file : named := {| n_shorts := []; n_longs := []; n_value := Some (lit "<file>"); n_optional := false; n_help := Some (lit "input") |}.
Definition sample_table : list expected :=
  [mkE opt_verbose false 0 3; mkE opt_x false 1 1; mkE opt_level true 0 2; mkE opt_date true 1 2; mkE opt_file true 2 100].

(** strftime for the format "%Y-%m-%d", for two dates. *)
Definition sample_strftime (t : tm) : option str := Some (if tm_year t =? 99 then lit "1999-12-31" else lit "1900-01-00").
Definition sample_errors : list u_error :=
  [mkX KLit sample_strftime (header_of opt_x) 1 (Some []);
   mkX KInt sample_strftime (header_of opt_level) 4 (Some (lit "99999999999"));
   mkX KInt sample_strftime (header_of opt_level) 2 (Some (lit "7"));
   mkX KDate sample_strftime (header_of opt_date) 6 (Some (lit "never"));
   mkX KFile sample_strftime (header_of opt_file) 1 None;
   mkX KEnd sample_strftime (mkN None None None) (-61) None;
   mkX KEnd sample_strftime (mkN None None None) 4 (Some (lit "--what"))].
Definition sample_complaints : list (named * complaint) :=
  [(opt_x, FlagTooFew); (opt_level, IntTooLarge (lit "99999999999")); (opt_level, TooManyOf (lit "7")); (opt_date, NotDate (lit "never") (lit "1900-01-00"));
   (opt_file, TooFew); (opt_file, UnknownLetter "195"); (opt_file, UnknownLong (lit "--what"))].

(** A strtod for one digit, a point and one digit. *)
Definition sample_strtod (t : str) : Z * nat :=
  match t with
  | [a; b; c] => if aeqb b "." then (10 * (Z.of_nat (nat_of_ascii a) - 48) + (Z.of_nat (nat_of_ascii c) - 48), 3%nat) else (Z.of_nat (nat_of_ascii a) - 48, 1%nat)
  | _ => (0, 0%nat)
  end.
Definition sample_words : list (option str) := [Some (lit "1.5"); Some (lit "1x5"); None; Some (lit "abcd"); Some (lit "2.5"); Some (lit "3.5")].
