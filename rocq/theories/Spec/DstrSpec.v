(** What the growable string should contain after a history of calls. *)
From Coq Require Import ZArith List Ascii.
From Verif.Base Require Import CInt CStr CMem.
From Verif.Model Require Import Dstr.
Import ListNotations.
Open Scope list_scope.
Open Scope Z_scope.

(** A text seen as a C string ends at its first NUL byte. *)
Fixpoint upto_nul (s : str) : str :=
  match s with
  | [] => []
  | c :: s' => if aeqb c NUL then [] else c :: upto_nul s'
  end.

Definition text_after (o : op) (t : str) : str :=
  match o with
  | Cat s => t ++ s
  | Catc c => t ++ upto_nul [c]
  | Catf _ text => t ++ upto_nul text
  | Reset | Set_null => []
  | Set_volatile s | Set_static s | Set_dynamic s => s
  end.

Definition text_of (os : list op) : str := fold_left (fun t o => text_after o t) os [].

(** One gigabyte, less two bytes: the code doubles the space it needs, and the
    result must be an [int]. *)
Definition LIMIT : Z := 1073741822.

(** The strings a caller passes are C strings; formats and formatted texts are
    below the limit. *)
Definition well_formed (o : op) : Prop :=
  match o with
  | Cat s | Set_volatile s | Set_static s | Set_dynamic s => no_nul s
  | Catf n text => Z.of_nat n < LIMIT /\ len text < LIMIT
  | _ => True
  end.

(** The text stays below the limit throughout. *)
Definition below_limit (os : list op) : Prop :=
  forall before after, os = before ++ after -> len (text_of before) < LIMIT.

(** No heap block is left allocated. *)
Definition all_freed (h : list (option block)) : Prop := Forall (fun b => b = None) h.
