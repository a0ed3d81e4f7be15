(** bindings/Lua/judger.c again, now with its memory: the blocks that _strdup
    allocates and destory_config frees.  malloc may fail at any time.  Freeing
    anything but NULL or a live block, and writing outside an array, is undefined
    behaviour.  (Model/LuaBinding.v has the values.) *)
From Coq Require Import ZArith Bool List Ascii String.
From Verif.Base Require Import CInt CStr CMem.
From Verif.Model Require Import Config LuaBinding.
Import ListNotations.
Open Scope list_scope.
Open Scope nat_scope.

(** The live blocks with the strings in them; the number of calls of malloc so far. *)
Record mem : Type := mkMem { m_live : list (nat * str); m_calls : nat }.
Definition ptr : Type := option nat.

(** bindings/Lua/judger.c:85-90; [ok n] tells whether the n-th malloc succeeds. *)
Definition strdup_ (ok : nat -> bool) (s : str) (m : mem) : ptr * mem :=
  let n := m_calls m in
  if ok n then (Some n, mkMem ((n, strdup s) :: m_live m) (S n)) else (None, mkMem (m_live m) (S n)).

Fixpoint remove_block (i : nat) (l : list (nat * str)) : option (list (nat * str)) :=
  match l with
  | [] => None
  | (j, s) :: l =>
      if Nat.eqb i j then Some l
      else match remove_block i l with Some l => Some ((j, s) :: l) | None => None end
  end.

(** free(p) *)
Definition free_ (p : ptr) (m : mem) : cres mem :=
  match p with
  | None => Val m
  | Some i => match remove_block i (m_live m) with Some l => Val (mkMem l (m_calls m)) | None => UB end
  end.

(** [a[i] = p] *)
Definition set_slot (a : list ptr) (i : nat) (p : ptr) : cres (list ptr) :=
  if i <? List.length a then Val (firstn i a ++ [p] ++ skipn (S i) a) else UB.

(** The pointers of struct config (src/runner.h:61-77): exe_path, input_path, output_path, error_path,
    log_path, seccomp_rule_name; args; env.  The numbers are in a [config]. *)
Record lconf : Type := mkL { l_nums : config; l_strs : list ptr; l_args : list ptr; l_env : list ptr }.

(** bindings/Lua/judger.c:155 *)
Definition zero_lconf : lconf :=
  mkL zero_config (repeat None 6) (repeat None ARGS_MAX_NUMBER) (repeat None ENV_MAX_NUMBER).

(** bindings/Lua/judger.c:92-106 *)
Fixpoint free_all (ps : list ptr) (m : mem) : cres mem :=
  match ps with
  | [] => Val m
  | p :: ps => cbind (free_ p m) (free_all ps)
  end.
Fixpoint free_both (i n : nat) (a b : list ptr) (m : mem) : cres mem :=
  match n with
  | 0 => Val m
  | S n =>
      match nth_error a i, nth_error b i with
      | Some p, Some q => cbind (free_ p m) (fun m => cbind (free_ q m) (free_both (S i) n a b))
      | _, _ => UB
      end
  end.
Definition destory_config (L : lconf) (m : mem) : cres mem :=
  cbind (free_all (l_strs L) m) (fun m => free_both 0 256 (l_args L) (l_env L) m).

(** bindings/Lua/judger.c:108-132: whether it returns 1, [*dst_size], [dst] and the memory. *)
Fixpoint checkstringtable_ (ok : nat -> bool) (l : list (lval * lval)) (max_size size : nat) (dst : list ptr) (m : mem)
  : cres (bool * nat * list ptr * mem) :=
  match l with
  | [] => Val (true, size, dst, m)
  | (LNumber _, LString s) :: l =>
      if Nat.eqb size max_size then Val (false, size, dst, m)
      else
        let (p, m) := strdup_ ok s m in
        cbind (set_slot dst size p) (fun dst => checkstringtable_ ok l max_size (S size) dst m)
  | _ :: _ => Val (false, size, dst, m)
  end.

(** Lines 145-150 and 170, 180. *)
Definition store_string_ (i : nat) (p : ptr) (L : lconf) : cres lconf :=
  if (5 <=? i) && (i <=? 10)
  then cbind (set_slot (l_strs L) (i - 5) p) (fun ss => Val (mkL (l_nums L) ss (l_args L) (l_env L)))
  else UB.

(** bindings/Lua/judger.c:158-185: [false] when it goes on to luaL_error (lines 162 and 175, after
    destory_config). *)
Fixpoint read_args_ (ok : nat -> bool) (t : list (lval * lval)) (masks : list (string * ltype * bool)) (i : nat)
    (L : lconf) (m : mem) : cres (bool * lconf * mem) :=
  match masks with
  | [] => Val (true, L, m)
  | (name, ty, nil_accept) :: masks =>
      let v := lookup t (lit name) in
      if negb (has_type ty v) && negb (nil_accept && is_nil v) then Val (false, L, m)
      else
        match v with
        | LNumber n => read_args_ ok t masks (S i) (mkL (store_number i n (l_nums L)) (l_strs L) (l_args L) (l_env L)) m
        | LString s =>
            let (p, m) := strdup_ ok s m in
            cbind (store_string_ i p L) (fun L => read_args_ ok t masks (S i) L m)
        | LTable l =>
            let first := Nat.eqb i 11 in
            cbind (checkstringtable_ ok l 255 0 (if first then l_args L else l_env L) m) (fun r =>
            let '(good, size, dst, m) := r in
            let put dst := if first then mkL (l_nums L) (l_strs L) dst (l_env L) else mkL (l_nums L) (l_strs L) (l_args L) dst in
            if good then cbind (set_slot dst size None) (fun dst => read_args_ ok t masks (S i) (put dst) m)
            else Val (false, put dst, m))
        | LNil => cbind (store_string_ i None L) (fun L => read_args_ ok t masks (S i) L m)
        | _ => read_args_ ok t masks (S i) L m
        end
  end.

(** bindings/Lua/judger.c:155-185. *)
Definition read_config_ (ok : nat -> bool) (t : list (lval * lval)) : cres (bool * lconf * mem) :=
  read_args_ ok t arg_mask 0 zero_lconf (mkMem [] 0).

(** bindings/Lua/judger.c:134-201, called with one table: whether run() is called, and the memory when
    global_judge is left (by return or by luaL_error). *)
Definition global_judge_ (ok : nat -> bool) (t : list (lval * lval)) : cres (bool * mem) :=
  cbind (read_config_ ok t) (fun r =>
  let '(good, L, m) := r in cbind (destory_config L m) (fun m => Val (good, m))).

(** The configuration as run() sees it: strings through their pointers. *)
Fixpoint deref (p : ptr) (l : list (nat * str)) : option str :=
  match p with
  | None => None
  | Some i => match l with [] => None | (j, s) :: l => if Nat.eqb i j then Some s else deref p l end
  end.
Definition cell_of (l : list (nat * str)) (p : ptr) : cell := match deref p l with Some s => Ptr s | None => Null end.
Definition string_of (L : lconf) (l : list (nat * str)) (i : nat) : option str := deref (nth i (l_strs L) None) l.
