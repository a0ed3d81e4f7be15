(** C76: file names.  The code is in Model/ArgFile.v; base names and extensions are in
    Spec/FileSpec.v. *)
From Coq Require Import ZArith Bool List Ascii String.
From Verif.Base Require Import CInt CStr CMem.
From Verif.Model Require Import ArgInt ArgFile.
From Verif.Spec Require Import FileSpec.
From Verif.Proofs Require Import FileOk.
Import ListNotations.
Open Scope list_scope.

(** Every name is stored with its base name and the extension of that, in the next free slot; no other slot changes. *)
Theorem C76_scan : forall maxcount f name, (0 <= f_count f < maxcount)%Z ->
  Z.of_nat (List.length (f_filename f)) = maxcount -> Z.of_nat (List.length (f_basename f)) = maxcount ->
  Z.of_nat (List.length (f_extension f)) = maxcount ->
  exists f' base ext, file_scan maxcount f (Some name) = Val (0%Z, f') /\ f_count f' = (f_count f + 1)%Z /\
    base_of name base /\ ext_of base ext /\ let i := Z.to_nat (f_count f) in
    stored_at (f_filename f) i name (f_filename f') /\ stored_at (f_basename f) i base (f_basename f') /\
    stored_at (f_extension f) i ext (f_extension f').
Proof. exact file_scanned. Qed.
Print Assumptions C76_scan.

(** There is one base name and one extension, so C76_scan says what is stored. *)
Theorem C76_one : forall name base base' ext ext', base_of name base -> base_of name base' -> ext_of base ext -> ext_of base' ext' ->
  base = base' /\ ext = ext'.
Proof. exact base_and_ext_unique. Qed.
Print Assumptions C76_one.

(** One name too many is an error and changes nothing; an option without its value only counts. *)
Theorem C76_edges : forall maxcount f v,
  (f_count f = maxcount -> file_scan maxcount f v = Val (ARG_ERR_MAXCOUNT, f)) /\
  ((f_count f < maxcount)%Z -> file_scan maxcount f None = Val (0%Z, mkF (f_filename f) (f_basename f) (f_extension f) (f_count f + 1))).
Proof. exact file_edges. Qed.
Print Assumptions C76_edges.

Definition empty1 : arg_file := mkF [lit ""] [lit ""] [lit ""] 0.
Example C76_sample : file_scan 1 empty1 (Some (lit "/usr/lib/libseccomp.so.2")) = Val (0%Z, mkF [lit "/usr/lib/libseccomp.so.2"] [lit "libseccomp.so.2"] [lit ".2"] 1).
Proof. reflexivity. Qed.
Example C76_sample_hidden : file_scan 1 empty1 (Some (lit "a.d/.profile")) = Val (0%Z, mkF [lit "a.d/.profile"] [lit ".profile"] [lit ""] 1).
Proof. reflexivity. Qed.
Example C76_sample_directory : file_scan 1 empty1 (Some (lit "a/..")) = Val (0%Z, mkF [lit "a/.."] [lit ""] [lit ""] 1).
Proof. reflexivity. Qed.
Example C76_sample_dot : file_scan 1 empty1 (Some (lit "main.")) = Val (0%Z, mkF [lit "main."] [lit "main."] [lit ""] 1).
Proof. reflexivity. Qed.
