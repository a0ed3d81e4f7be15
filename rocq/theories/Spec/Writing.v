(** How to write a command line that says what one wants to say. *)
From Coq Require Import List Ascii String Arith.
From Verif.Base Require Import CStr.
From Verif.Spec Require Import CmdLine AnyLine.
Import ListNotations.
Open Scope list_scope.
Open Scope nat_scope.

(** Ways to give option [k], with a value or without. *)
Inductive setting : Type :=
| NameAlone (k : nat) (n : str)               (* --name *)
| NameWith (k : nat) (n v : str)              (* --name=value *)
| NameThen (k : nat) (n v : str)              (* --name value *)
| LettersAlone (ks : list (nat * ascii))      (* -abc *)
| LetterWith (k : nat) (c : ascii) (v : str)  (* -cvalue *)
| LetterThen (k : nat) (c : ascii) (v : str). (* -c value *)

Definition write (s : setting) : list str :=
  match s with
  | NameAlone _ n => [lit "--" ++ n]
  | NameWith _ n v => [lit "--" ++ n ++ lit "=" ++ v]
  | NameThen _ n v => [lit "--" ++ n; v]
  | LettersAlone ks => [lit "-" ++ map snd ks]
  | LetterWith _ c v => [lit "-" ++ [c] ++ v]
  | LetterThen _ c v => [lit "-" ++ [c]; v]
  end.

(** What is to be read. *)
Definition said (s : setting) : list event :=
  match s with
  | NameAlone k n => [Long k None (lit "--" ++ n)]
  | NameWith k n v => [Long k (Some v) (lit "--" ++ n ++ lit "=" ++ v)]
  | NameThen k n v => [Long k (Some v) v]
  | LettersAlone ks => map (fun kc => Short (fst kc) None) ks
  | LetterWith k c v => [Short k (Some v)]
  | LetterThen k c v => [Short k (Some v)]
  end.

Section Allowed.
Variable os : list opt.

(** [n] is the name of option [k] and of no option before it. *)
Definition name_of (k : nat) (n : str) : Prop :=
  n <> [] /\ no_char "="%char n /\ has_name os k n /\ forall j, has_name os j n -> k <= j.

Definition allowed (s : setting) : Prop :=
  match s with
  | NameAlone k n => name_of k n /\ ~ option_takes os k Value
  | NameWith k n v => name_of k n /\ ~ option_takes os k Nothing
  | NameThen k n v => name_of k n /\ option_takes os k Value
  | LettersAlone ks => ks <> [] /\ Forall (fun kc => letter_means os (snd kc) (fst kc) /\ option_takes os (fst kc) Nothing) ks
  | LetterWith k c v => letter_means os c k /\ ~ option_takes os k Nothing /\ v <> []
  | LetterThen k c v => letter_means os c k /\ option_takes os k Value
  end.
End Allowed.

(** A command line: settings, and other words between them. *)
Inductive item : Type := Set_ (s : setting) | Word (w : str).

Definition item_words (i : item) : list str := match i with Set_ s => write s | Word w => [w] end.
Definition item_events (i : item) : list event := match i with Set_ s => said s | Word _ => [] end.
Definition item_args (i : item) : list str := match i with Set_ _ => [] | Word w => [w] end.
Definition item_allowed (os : list opt) (i : item) : Prop :=
  match i with Set_ s => allowed os s | Word w => ~ option_word w end.
