(** The growable string of argtable3: src/argtable3.c:971-1210.

    Simplifications: [xmalloc] (lines 356-362) ends the process when memory is
    exhausted, so an allocation always succeeds here; a block is named by its
    index in a heap that never reuses indices; the only [free_proc] values are
    the three of src/argtable3.h:215-217 (no caller passes its own function); a
    string given to [arg_dstr_set] or [arg_dstr_cat] does not lie inside the
    buffers of the same object. *)
From Coq Require Import ZArith Bool List Ascii.
From Verif.Base Require Import CInt CStr CMem.
Import ListNotations.
Open Scope list_scope.
Open Scope Z_scope.

(** src/argtable3.h:44 and src/argtable3.c:923. *)
Definition ARG_DSTR_SIZE : Z := 200.
Definition START_VSNBUFF : Z := 16.

(** What [data] can point to: the [sbuf] array, a heap block, or a string of the
    caller (ARG_DSTR_STATIC). *)
Inductive ptr := PSbuf | PBlock (i : nat) | PStatic (s : str).

(** struct _internal_arg_dstr, lines 971-978, and the heap.  [dynamic] is
    [free_proc == ARG_DSTR_DYNAMIC]; otherwise [free_proc] is NULL. *)
Record dstr := mkD {
  d_data : ptr;
  d_dynamic : bool;
  d_sbuf : block;
  d_append : option nat;
  d_size : Z;
  d_used : Z;
  d_heap : list (option block)
}.

Definition set_data p d := mkD p (d_dynamic d) (d_sbuf d) (d_append d) (d_size d) (d_used d) (d_heap d).
Definition set_dynamic b d := mkD (d_data d) b (d_sbuf d) (d_append d) (d_size d) (d_used d) (d_heap d).
Definition set_sbuf b d := mkD (d_data d) (d_dynamic d) b (d_append d) (d_size d) (d_used d) (d_heap d).
Definition set_append a n d := mkD (d_data d) (d_dynamic d) (d_sbuf d) a n (d_used d) (d_heap d).
Definition set_used n d := mkD (d_data d) (d_dynamic d) (d_sbuf d) (d_append d) (d_size d) n (d_heap d).
Definition set_heap h d := mkD (d_data d) (d_dynamic d) (d_sbuf d) (d_append d) (d_size d) (d_used d) h.

Fixpoint upd {A} (i : nat) (x : A) (l : list A) : list A :=
  match l, i with
  | [], _ => []
  | _ :: l', O => x :: l'
  | y :: l', S i' => y :: upd i' x l'
  end.

(** xmalloc of [n] bytes holding [b]. *)
Definition malloc (b : block) (d : dstr) : nat * dstr :=
  (List.length (d_heap d), set_heap (d_heap d ++ [Some b]) d).

(** xfree: freeing anything but a live block is undefined. *)
Definition free (p : ptr) (d : dstr) : cres dstr :=
  match p with
  | PBlock i => match nth_error (d_heap d) i with
                | Some (Some _) => Val (set_heap (upd i None (d_heap d)) d)
                | _ => UB
                end
  | _ => UB
  end.

(** The bytes a pointer reaches. *)
Definition deref (p : ptr) (d : dstr) : cres block :=
  match p with
  | PSbuf => Val (d_sbuf d)
  | PBlock i => match nth_error (d_heap d) i with Some (Some b) => Val b | _ => UB end
  | PStatic s => Val (terminated s)
  end.

(** Write through a pointer; a string of the caller is not writable. *)
Definition write (p : ptr) (off : nat) (w : block) (d : dstr) : cres dstr :=
  match p with
  | PSbuf => cbind (store (d_sbuf d) off w) (fun b => Val (set_sbuf b d))
  | PBlock i => cbind (deref p d) (fun b => cbind (store b off w) (fun b' => Val (set_heap (upd i (Some b') (d_heap d)) d)))
  | PStatic _ => UB
  end.

Definition len (s : str) : Z := Z.of_nat (List.length s).

(** [ds->data == ds->append_data]. *)
Definition data_is_append (d : dstr) : bool :=
  match d_data d, d_append d with PBlock i, Some j => Nat.eqb i j | _, _ => false end.

(** arg_dstr_create, lines 982-989 (the structure is zeroed). *)
Definition arg_dstr_create : dstr := mkD PSbuf false (zeroed 201) None 0 0 [].

(** arg_dstr_cstr, lines 1045-1048: the string at [data]. *)
Definition arg_dstr_cstr (d : dstr) : cres str := cbind (deref (d_data d) d) cstr.

(** [(int) strlen(ds->data)]. *)
Definition data_length (d : dstr) : cres Z := cbind (arg_dstr_cstr d) (fun s => Val (cast_int (len s))).

(** Freeing [append_data], lines 1038-1042 and 1202-1206. *)
Definition drop_append (d : dstr) : cres dstr :=
  match d_append d with
  | Some i => if 0 <? d_size d
              then cbind (free (PBlock i) d) (fun d => Val (set_append None 0 d))
              else Val d
  | None => Val d
  end.

(** arg_dstr_free, lines 1189-1198. *)
Definition arg_dstr_free (d : dstr) : cres dstr :=
  if d_dynamic d
  then cbind (free (d_data d) d) (fun d => Val (set_dynamic false d))
  else Val d.

(** arg_dstr_reset, lines 1200-1210. *)
Definition arg_dstr_reset (d : dstr) : cres dstr :=
  cbind (arg_dstr_free d) (fun d =>
  cbind (drop_append d) (fun d =>
  write PSbuf 0 [Some NUL] (set_data PSbuf d))).

(** arg_dstr_destroy, lines 991-998: the structure itself is released after the
    reset; what remains is the heap. *)
Definition arg_dstr_destroy (d : dstr) : cres (list (option block)) :=
  cbind (arg_dstr_reset d) (fun d => Val (d_heap d)).

(** Pointer equality [old_result != ds->data], line 1030.  Two strings of the
    caller are taken to be different objects; the comparison is used only when
    the old result is a heap block. *)
Definition same_ptr (p q : ptr) : bool :=
  match p, q with PSbuf, PSbuf => true | PBlock i, PBlock j => Nat.eqb i j | _, _ => false end.

(** The second half of arg_dstr_set, lines 1024-1043. *)
Definition release_old (old_dynamic : bool) (old : ptr) (d : dstr) : cres dstr :=
  cbind (if old_dynamic && negb (same_ptr old (d_data d)) then free old d else Val d) drop_append.

(** arg_dstr_set(ds, NULL, _), lines 1005-1008. *)
Definition arg_dstr_set_null (d : dstr) : cres dstr :=
  cbind (write PSbuf 0 [Some NUL] d) (fun d' =>
  release_old (d_dynamic d) (d_data d) (set_dynamic false (set_data PSbuf d'))).

(** arg_dstr_set(ds, str, ARG_DSTR_VOLATILE), lines 1009-1018. *)
Definition arg_dstr_set_volatile (s : str) (d : dstr) : cres dstr :=
  let length := cast_int (len s) in
  let d' :=
    if ARG_DSTR_SIZE <? length
    then let (i, d1) := malloc (repeat None (Z.to_nat (cast_u32 length + 1))) d in
         set_dynamic true (set_data (PBlock i) d1)
    else set_dynamic false (set_data PSbuf d) in
  cbind (write (d_data d') 0 (terminated s) d') (fun d' =>
  release_old (d_dynamic d) (d_data d) d').

(** arg_dstr_set(ds, str, ARG_DSTR_STATIC), lines 1019-1022. *)
Definition arg_dstr_set_static (s : str) (d : dstr) : cres dstr :=
  release_old (d_dynamic d) (d_data d) (set_dynamic false (set_data (PStatic s) d)).

(** arg_dstr_set(ds, str, ARG_DSTR_DYNAMIC), lines 1019-1022: [str] is a block
    the caller has allocated just before; its ownership passes to the object. *)
Definition arg_dstr_set_dynamic (s : str) (d : dstr) : cres dstr :=
  let (i, d1) := malloc (terminated s) d in
  release_old (d_dynamic d) (d_data d) (set_dynamic true (set_data (PBlock i) d1)).

(** setup_append_buf, lines 1135-1187. *)
Definition setup_append_buf (new_space : Z) (d : dstr) : cres dstr :=
  (* 1143-1162 *)
  cbind (if negb (data_is_append d)
         then cbind (if 500 <? d_size d
                     then match d_append d with
                          | Some i => cbind (free (PBlock i) d) (fun d => Val (set_append None 0 d))
                          | None => Val (set_append None 0 d)      (* free(NULL) *)
                          end
                     else Val d) (fun d =>
              cbind (data_length d) (fun n => Val (set_used n d)))
         else cbind (deref (d_data d) d) (fun b =>
              cbind (if (d_used d <? 0) then UB else load b (Z.to_nat (d_used d))) (fun c =>
              if aeqb c NUL then Val d
              else cbind (data_length d) (fun n => Val (set_used n d))))) (fun d =>
  (* 1164-1183 *)
  cbind (int_op (new_space + d_used d)) (fun total =>
  cbind (if d_size d <=? total
         then cbind (if total <? 100 then Val 200 else int_op (total * 2)) (fun total =>
              let (i, d1) := malloc (zeroed (Z.to_nat (cast_u32 total))) d in
              cbind (arg_dstr_cstr d1) (fun t =>
              cbind (write (PBlock i) 0 (terminated t) d1) (fun d2 =>
              cbind (match d_append d with Some j => free (PBlock j) d2 | None => Val d2 end) (fun d3 =>
              Val (set_append (Some i) total d3)))))
         else if negb (data_is_append d)
         then match d_append d with
              | Some j => cbind (arg_dstr_cstr d) (fun t => write (PBlock j) 0 (terminated t) d)
              | None => UB                                          (* strcpy(NULL, _) *)
              end
         else Val d) (fun d =>
  (* 1185-1186.  [append_data] is not NULL here; assigning NULL to [data] would
     make every later use undefined. *)
  cbind (arg_dstr_free d) (fun d =>
  match d_append d with
  | Some i => Val (set_data (PBlock i) d)
  | None => UB
  end)))).

(** arg_dstr_cat, lines 1050-1053. *)
Definition arg_dstr_cat (s : str) (d : dstr) : cres dstr :=
  cbind (int_op (cast_int (len s) + 1)) (fun n =>
  cbind (setup_append_buf n d) (fun d =>
  cbind (arg_dstr_cstr d) (fun t => write (d_data d) (List.length t) (bytes s) d))).

(** arg_dstr_catc, lines 1055-1058. *)
Definition arg_dstr_catc (c : ascii) (d : dstr) : cres dstr :=
  cbind (setup_append_buf 2 d) (fun d =>
  cbind (arg_dstr_cstr d) (fun t => write (d_data d) (List.length t) [Some c] d)).

(** vsnprintf(buff, n + 1, ...) of a text into a zeroed buffer of [n + 2] bytes:
    the first [n] bytes of the text and a NUL; the result is the length of the
    whole text.  A text of more than INT_MAX bytes, for which C leaves the
    buffer unspecified, counts as undefined. *)
Definition vsnprintf (n : Z) (text : str) : cres (Z * block) :=
  if INT_MAX <? len text then UB
  else cbind (store (zeroed (Z.to_nat (n + 2))) 0 (terminated (firstn (Z.to_nat n) text)))
             (fun b => Val (len text, b)).

(** The loop of arg_dstr_catf, lines 1112-1129.  [fuel] bounds the iterations;
    running out of it is reported as undefined (it does not happen: C61). *)
Fixpoint catf_loop (fuel : nat) (n : Z) (text : str) : cres str :=
  match fuel with
  | O => UB
  | S fuel =>
      cbind (int_op (n + 2)) (fun _ =>
      cbind (vsnprintf n text) (fun '(r, buff) =>
      cbind (cstr buff) (fun s =>
      if len s <? n then Val s
      else if n <? r then catf_loop fuel r text
      else cbind (int_op (n + n)) (fun n => catf_loop fuel n text))))
  end.

(** arg_dstr_catf, lines 1093-1133.  The arguments are the length of the format
    and the text it expands to. *)
Definition arg_dstr_catf (fmt_length : nat) (text : str) (d : dstr) : cres dstr :=
  let n := cast_int (2 * Z.of_nat fmt_length) in
  let n := if n <? START_VSNBUFF then START_VSNBUFF else n in
  cbind (catf_loop 3 n text) (fun s => arg_dstr_cat s d).

(** A history of calls. *)
Inductive op :=
| Cat (s : str)
| Catc (c : ascii)
| Catf (fmt_length : nat) (text : str)
| Reset
| Set_null
| Set_volatile (s : str)
| Set_static (s : str)
| Set_dynamic (s : str).

Definition call (o : op) (d : dstr) : cres dstr :=
  match o with
  | Cat s => arg_dstr_cat s d
  | Catc c => arg_dstr_catc c d
  | Catf n t => arg_dstr_catf n t d
  | Reset => arg_dstr_reset d
  | Set_null => arg_dstr_set_null d
  | Set_volatile s => arg_dstr_set_volatile s d
  | Set_static s => arg_dstr_set_static s d
  | Set_dynamic s => arg_dstr_set_dynamic s d
  end.

Fixpoint calls (os : list op) (d : dstr) : cres dstr :=
  match os with
  | [] => Val d
  | o :: os' => cbind (call o d) (calls os')
  end.
