(** Tables of switches, integers and texts: what is written on the command line is
    what the table holds afterwards. *)
From Coq Require Import List ZArith Ascii String Arith.
From Verif.Base Require Import CInt CStr.
From Verif.Model Require Import Argtable.
From Verif.Spec Require Import IntText CmdLine AnyLine AnySpec Writing.
Import ListNotations.
Open Scope list_scope.
Open Scope nat_scope.

(** An option (or an argument without letters and names), and how often it is
    expected. *)
Inductive kind : Type := Flag | Number | Text.
Record plain : Type := mkPlain {
  pl_kind : kind; pl_letters : list ascii; pl_names : list str; pl_least : nat; pl_most : nat
}.

Definition as_option (p : plain) : opt :=
  mkOpt (pl_letters p) (pl_names p) (match pl_kind p with Flag => Nothing | _ => Value end).

(** The entry made by arg_litn, arg_intn, arg_strn, and the same with values. *)
Definition as_entry (p : plain) : entry :=
  mkEntry (match pl_kind p with Flag => ALit | Number => AInt | Text => AStr end)
          (match pl_letters p with [] => None | l => Some l end)
          (match pl_names p with [] => None | ns => Some (join_commas ns) end)
          (pl_least p) (pl_most p) [].
Definition holding (p : plain) (vals : list aval) : entry :=
  mkEntry (e_kind (as_entry p)) (e_short (as_entry p)) (e_long (as_entry p)) (pl_least p) (pl_most p) vals.

(** What is kept of a value. *)
Inductive stored : kind -> option str -> aval -> Prop :=
| stored_flag v : stored Flag v VNone
| stored_number s n : plain_int s n -> is_int n -> stored Number (Some s) (VInt n)
| stored_text s : stored Text (Some s) (VStr s).

(** What a setting gives, to which option. *)
Definition gives (s : setting) : list (nat * option str) :=
  match s with
  | NameAlone k _ => [(k, None)]
  | NameWith k _ v | NameThen k _ v | LetterWith k _ v | LetterThen k _ v => [(k, Some v)]
  | LettersAlone ks => map (fun kc => (fst kc, None)) ks
  end.
(** An empty value cannot be given by name. *)
Definition not_empty (s : setting) : Prop :=
  match s with NameWith _ _ v | NameThen _ _ v => v <> [] | _ => True end.

(** The other words go to the arguments without letters and names, in order; each
    takes as many as it can. *)
Fixpoint dealt (k : nat) (ps : list plain) (ws : list str) : list (nat * option str) :=
  match ps with
  | [] => []
  | mkPlain _ [] [] _ most :: ps => map (fun w => (k, Some w)) (firstn most ws) ++ dealt (S k) ps (skipn most ws)
  | _ :: ps => dealt (S k) ps ws
  end.

(** The values kept for option [k], when [kept] are the values kept for [xs]. *)
Definition values_of (k : nat) (xs : list (nat * option str)) (kept : list aval) : list aval :=
  map snd (filter (fun x => fst (fst x) =? k) (combine xs kept)).

(** The table afterwards. *)
Fixpoint filled (k : nat) (ps : list plain) (xs : list (nat * option str)) (kept : list aval) : list entry :=
  match ps with
  | [] => []
  | p :: ps => holding p (values_of k xs kept) :: filled (S k) ps xs kept
  end.

(** [xs] is what the command line gives; [kept] is what is kept of it. *)
Definition in_order (ps : list plain) (xs : list (nat * option str)) (kept : list aval) : Prop :=
  Forall2 (fun x a => exists p, nth_error ps (fst x) = Some p /\ stored (pl_kind p) (snd x) a) xs kept /\
  forall k p, nth_error ps k = Some p -> pl_least p <= List.length (values_of k xs kept) <= pl_most p.

(** A command line of settings and other words ([Word]). *)
Definition item_gives (i : item) : list (nat * option str) := match i with Set_ s => gives s | Word _ => [] end.
Definition item_fine (os : list opt) (i : item) : Prop :=
  match i with Set_ s => allowed os s /\ not_empty s | Word w => ~ option_word w end.

(** How the object behind such an option behaves: by its own scan and check
    functions (Model/Argtable.v; integers: C38), starting without values. *)
Definition acts (p : plain) : behaviour (list aval) :=
  mkB (Some (fun v vals => cbind (scanfn (holding p vals) v) (fun '(c, e) => Val (c, e_vals e))))
      (Some (fun vals => checkfn (holding p vals)))
      (Some (fun _ => [])).
(** The table that an outcome describes. *)
Definition tabled (ps : list plain) (r : cres (list (list aval) * list error)) : cres (list entry * list error) :=
  match r with
  | UB => UB
  | Val (vals, errs) => Val (map (fun pv => holding (fst pv) (snd pv)) (combine ps vals), errs)
  end.
