(** Formatting an option into a fixed buffer: src/argtable3.c:5432-5579.

    A position in the buffer is an offset.  [ndest] is the number of bytes from
    the position to [end], the fixed limit the first caller passed. *)
From Coq Require Import ZArith Bool List Ascii String Arith.
From Verif.Base Require Import CInt CStr CMem.
Import ListNotations.
Open Scope list_scope.
Open Scope nat_scope.

(** The buffer with [*pdest] and [*pndest]. *)
Record cursor := mkC { c_buf : block; c_dest : nat; c_ndest : nat }.

(** src/argtable3.c:5437-5438: at most [room] positions are before [end-1]. *)
Fixpoint seek (room : nat) (b : block) (dest : nat) : cres nat :=
  match room with
  | 0 => Val dest
  | S room => cbind (load b dest) (fun c => if aeqb c NUL then Val dest else seek room b (S dest))
  end.

(** src/argtable3.c:5441-5442. *)
Fixpoint copy (room : nat) (b : block) (dest : nat) (src : str) : cres (block * nat) :=
  match room, src with
  | S room, c :: src => cbind (store b dest [Some c]) (fun b => copy room b (S dest) src)
  | _, _ => Val (b, dest)
  end.

(** arg_cat, src/argtable3.c:5432-5450.  For [ndest = 0], [end - 1] lies before
    [dest]: no position is before it. *)
Definition arg_cat (src : str) (s : cursor) : cres cursor :=
  let end_ := c_dest s + c_ndest s in
  cbind (seek (end_ - 1 - c_dest s) (c_buf s) (c_dest s)) (fun dest =>
  cbind (copy (end_ - 1 - dest) (c_buf s) dest src) (fun '(b, dest) =>
  cbind (store b dest [Some NUL]) (fun b =>
  Val (mkC b dest (end_ - dest))))).

(** strncat(dest, src, n): appends at most [n] bytes and a NUL after the string
    that begins at [dest]. *)
Definition strncat (src : str) (n : nat) (s : cursor) : cres cursor :=
  cbind (cstr (skipn (c_dest s) (c_buf s))) (fun t =>
  cbind (store (c_buf s) (c_dest s + List.length t) (terminated (firstn n src))) (fun b =>
  Val (mkC b (c_dest s) (c_ndest s)))).

(** strcspn(s, ","). *)
Fixpoint strcspn_comma (s : str) : nat :=
  match s with
  | [] => 0
  | c :: r => if aeqb c ","%char then 0 else S (strcspn_comma r)
  end.

(** src/argtable3.c:5463-5471 and its repetitions: the datatype, in brackets if
    the value is optional. *)
Definition cat_value (datatype : str) (optvalue : bool) (s : cursor) : cres cursor :=
  if optvalue
  then cbind (arg_cat (lit "[") s) (fun s => cbind (arg_cat datatype s) (arg_cat (lit "]")))
  else arg_cat datatype s.

Definition cat_datatype (sep : string) (datatype : option str) (optvalue : bool) (s : cursor) : cres cursor :=
  match datatype with
  | Some d => cbind (arg_cat (lit sep) s) (cat_value d optvalue)
  | None => Val s
  end.

(** The name up to a comma, after "--": lines 5475-5484 and 5535-5544. *)
Definition cat_long (name : str) (s : cursor) : cres cursor :=
  cbind (arg_cat (lit "--") s) (fun s =>
  strncat name (if strcspn_comma name <? c_ndest s then strcspn_comma name else c_ndest s) s).

(** arg_cat_option, src/argtable3.c:5452-5503.  (For an empty [shortopts],
    [shortopts[0]] is NUL and the text is "-".) *)
Definition arg_cat_option (shortopts longopts datatype : option str) (optvalue : bool) (s : cursor) : cres cursor :=
  match shortopts, longopts with
  | Some so, _ =>
      cbind (arg_cat (match so with c :: _ => ["-"%char; c] | [] => lit "-" end) s) (cat_datatype " " datatype optvalue)
  | None, Some lo => cbind (cat_long lo s) (cat_datatype "=" datatype optvalue)
  | None, None => match datatype with Some d => cat_value d optvalue s | None => Val s end
  end.

(** src/argtable3.c:5508-5524: "-a|-b|-c". *)
Fixpoint cat_shorts (separator : str) (so : str) (s : cursor) : cres cursor :=
  match so with
  | [] => Val s
  | c :: so' =>
      cbind (arg_cat ["-"%char; c] s) (fun s =>
      match so' with
      | [] => Val s
      | _ => cbind (arg_cat separator s) (cat_shorts separator so')
      end)
  end.

(** src/argtable3.c:5530-5553: the long names; [fuel] is at least the number of
    characters left (each round consumes one or more unless a name is empty and
    not followed by a comma, which is the end of the string). *)
Fixpoint cat_longs (fuel : nat) (separator : str) (lo : str) (s : cursor) : cres cursor :=
  match fuel, lo with
  | _, [] => Val s
  | 0, _ => UB
  | S fuel, _ =>
      cbind (cat_long lo s) (fun s =>
      match skipn (strcspn_comma lo) lo with
      | _ :: lo' => cbind (arg_cat separator s) (cat_longs fuel separator lo')   (* a comma *)
      | [] => Val s
      end)
  end.

(** arg_cat_optionv, src/argtable3.c:5505-5568. *)
Definition arg_cat_optionv (shortopts longopts datatype : option str) (optvalue : bool) (separator : str)
                           (s : cursor) : cres cursor :=
  cbind (match shortopts with Some so => cat_shorts separator so s | None => Val s end) (fun s =>
  cbind (match shortopts, longopts with Some _, Some _ => arg_cat separator s | _, _ => Val s end) (fun s =>
  cbind (match longopts with Some lo => cat_longs (S (List.length lo)) separator lo s | None => Val s end) (fun s =>
  match datatype with
  | None => Val s
  | Some d =>
      cbind (match longopts, shortopts with
             | Some _, _ => arg_cat (lit "=") s
             | None, Some _ => arg_cat (lit " ") s
             | None, None => Val s
             end) (cat_value d optvalue)
  end))).

(** [char buf[N + 1] = "";] and the arguments [buf, sizeof(buf) - 1]. *)
Definition fresh_buffer (N : nat) : cursor := mkC (zeroed (S N)) 0 N.

(** [char syntax[200] = "";] and the arguments [syntax, sizeof(syntax) - 1]:
    lines 5571-5575, 5652-5662 and 5773-5778. *)
Definition syntax : cursor := fresh_buffer 199.

(** The string in the buffer afterwards. *)
Definition buffer_text (r : cres cursor) : cres str := cbind r (fun s => cstr (c_buf s)).

(** The text arg_print_option_ds appends before the suffix, lines 5570-5577. *)
Definition option_text (shortopts longopts datatype : option str) : cres str :=
  buffer_text (arg_cat_optionv shortopts longopts datatype false (lit "|") syntax).
