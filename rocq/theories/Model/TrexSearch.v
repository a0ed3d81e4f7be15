(** The rest of the T-Rex library: src/argtable3.c:4246-4395 again, now with the positions of the
    sub-expressions, and trex_match, trex_searchrange, trex_search, trex_getsubexpcount and
    trex_getsubexp (4449-4504).  argtable3 itself calls trex_match only; the others are exported
    (3601-3607).  Patterns are compiled as in Model/Trex.v, whose simplifications hold here too. *)
From Coq Require Import ZArith Bool List Ascii String.
From Verif.Base Require Import CInt CStr CMem.
From Verif.Model Require Import ArgInt Trex.
Import ListNotations.
Open Scope list_scope.
Open Scope Z_scope.

(** TRexMatch, lines 3589-3592: [begin] is null or points into one of the texts that the caller
    has used (texts are numbered), [len] is an int. *)
Definition place : Type := option (nat * nat) * Z.
Definition nowhere : place := (None, 0).
(** The members of struct TRex (3848-3863) that matching changes: [_currsubexp] and [_matches]. *)
Record subs := mkSubs { s_cur : Z; s_at : list place }.

(** Matching with these: as [mat], with the members before and after. *)
Definition sm (A : Type) : Type := subs -> mat (A * subs).
Definition sret {A} (a : A) : sm A := fun st => MRet (a, st).
Definition sbind {A B} (m : sm A) (k : A -> sm B) : sm B :=
  fun st => match m st with MRet (a, st) => k a st | MUB => MUB | MOut => MOut end.
Definition slift {A} (m : mat A) : sm A := fun st => mbind m (fun a => MRet (a, st)).
Definition sout {A} : sm A := fun _ => MOut.
Notation "'let+' x := m 'in' k" := (sbind m (fun x => k)) (at level 60, x name, right associativity).

(** [exp->_currsubexp]; [exp->_matches[i]]; assignments to them. *)
Definition cur_sub : sm Z := fun st => MRet (s_cur st, st).
Definition set_cur (c : Z) : sm unit := fun st => MRet (tt, mkSubs c (s_at st)).
Definition get_sub (i : Z) : sm place := fun st =>
  if i <? 0 then MUB else match nth_error (s_at st) (Z.to_nat i) with Some p => MRet (p, st) | None => MUB end.
Fixpoint put (l : list place) (i : nat) (p : place) : list place :=
  match l, i with
  | [], _ => []
  | _ :: l, O => p :: l
  | q :: l, S i => q :: put l i p
  end.
Definition set_sub (i : Z) (p : place) : sm unit := fun st =>
  if i <? 0 then MUB
  else match nth_error (s_at st) (Z.to_nat i) with Some _ => MRet (tt, mkSubs (s_cur st) (put (s_at st) (Z.to_nat i) p)) | None => MUB end.

(** trex_matchnode, lines 4246-4395, on text number [tid]; [bol] and [eol] are [_bol] and [_eol] as
    positions in it. *)
Section match_.
Variables (ns : list node) (icase : bool) (tid : nat) (text : str) (bol eol : nat).
(** The loop of OP_GREEDY, lines 4261-4292. *)
Fixpoint s_greedy (m : Z -> nat -> Z -> sm (option nat)) (k : nat) (left stop_ next : Z) (p0 p1 : Z) (s good : nat) (n : Z) : sm (nat * Z) :=
  match k with
  | O => sout
  | S k =>
      if (n =? 65535) || (n <? p1) then
        let+ r := m left s stop_ in
        match r with
        | None => sret (good, n)
        | Some s =>
            let n := n + 1 in
            let+ stops :=
              (if stop_ =? -1 then sret false
               else let+ g := slift (mlift (get ns stop_)) in
                    if negb (n_type g =? OP_GREEDY) || negb (minimum (n_right g) =? 0) then
                      let+ gnext :=
                        (if negb (n_next g =? -1) then sret (n_next g)
                         else if next =? -1 then sret (-1)
                         else let+ nn := slift (mlift (get ns next)) in sret (n_next nn)) in
                      let+ stop := m stop_ s gnext in
                      sret (match stop with Some _ => enough p0 p1 n | None => false end)
                    else sret false) in
            if stops then sret (s, n)
            else if (eol <=? s)%nat then sret (s, n)
            else s_greedy m k left stop_ next p0 p1 s s n
        end
      else sret (good, n)
  end.
(** The loops of OP_OR, lines 4304-4317, and of OP_EXPR, lines 4332-4346. *)
Fixpoint s_chain (m : Z -> nat -> Z -> sm (option nat)) (k : nat) (inner : bool) (i : Z) (s : nat) (next : Z) : sm (option nat) :=
  match k with
  | O => sout
  | S k =>
      let+ n := slift (mlift (get ns i)) in
      let+ r := m i s (if inner then (if n_next n =? -1 then next else n_next n) else -1) in
      match r with
      | None => sret None
      | Some s => if n_next n =? -1 then sret (Some s) else s_chain m k inner (n_next n) s next
      end
  end.
(** Lines 4324-4330: a sub-expression begins. *)
Definition open_sub (n : node) (s : nat) : sm (option Z) :=
  let+ c := cur_sub in
  if (n_type n =? OP_EXPR) && (n_right n =? c) then
    let+ p := get_sub c in
    let+ u := set_sub c (Some (tid, s), snd p) in
    let+ c' := slift (mlift (int_op (c + 1))) in
    let+ u := set_cur c' in sret (Some c)
  else sret None.
(** Lines 4339-4343 and 4348-4349: it ends, with or without a match.  The subtraction of pointers into
    different texts would be undefined. *)
Definition close_sub (capture : option Z) (r : option nat) : sm unit :=
  match capture with
  | None => sret tt
  | Some c =>
      match r with
      | None => set_sub c nowhere
      | Some e =>
          let+ p := get_sub c in
          match fst p with
          | Some (t, b) => if (t =? tid)%nat then set_sub c (fst p, cast_int (Z.of_nat e - Z.of_nat b)) else (fun _ => MUB)
          | None => fun _ => MUB
          end
      end
  end.
Fixpoint s_matchnode (fuel : nat) (i : Z) (s : nat) (next : Z) : sm (option nat) :=
  match fuel with
  | O => sout
  | S fuel =>
      let+ n := slift (mlift (get ns i)) in
      let t := n_type n in
      if t =? OP_GREEDY then
        let p0 := minimum (n_right n) in let p1 := maximum (n_right n) in
        let stop_ := if n_next n =? -1 then next else n_next n in
        let+ r := s_greedy (s_matchnode fuel) fuel (n_left n) stop_ next p0 p1 s s 0 in
        sret (if enough p0 p1 (snd r) then Some (fst r) else None)
      else if t =? OP_OR then
        let+ r := s_chain (s_matchnode fuel) fuel false (n_left n) s (-1) in
        match r with
        | Some s' => sret (Some s')
        | None => s_chain (s_matchnode fuel) fuel false (n_right n) s (-1)
        end
      else if (t =? OP_EXPR) || (t =? OP_NOCAPEXPR) then
        let+ capture := open_sub n s in
        let+ r := s_chain (s_matchnode fuel) fuel true (n_left n) s next in
        let+ u := close_sub capture r in sret r
      else if t =? OP_WB then
        slift (
        let* c := char_ text s in
        let* boundary :=
          (if (s =? bol)%nat && negb (isspace c) then MRet true
           else let* before := (if (s =? eol)%nat
                                then let* d := (if (s =? 0)%nat then MUB else char_ text (s - 1)) in MRet (negb (isspace d))
                                else MRet false) in
                if before then MRet true
                else let* d := char_ text (s + 1) in MRet (xorb (isspace c) (isspace d))) in
        MRet (if Bool.eqb boundary (n_left n =? sgn "b") then Some s else None))
      else if t =? OP_BOL then sret (if (s =? bol)%nat then Some s else None)
      else if t =? OP_EOL then sret (if (s =? eol)%nat then Some s else None)
      else if t =? OP_DOT then slift (if (List.length text <? s)%nat then MUB else MRet (Some (S s)))
      else if (t =? OP_NCLASS) || (t =? OP_CLASS) then
        slift (
        let* c := char_ text s in
        let* b := matchclass fuel ns icase (n_left n) c in
        MRet (one (Bool.eqb b (t =? OP_CLASS)) s))
      else slift (let* c := char_ text s in
        if t =? OP_CCLASS then MRet (one (matchcclass (n_left n) c) s)
        else MRet (one (same_char icase c t) s))
  end.

(** The inner loop of trex_searchrange, lines 4469-4475: the end of a match, and [node] afterwards. *)
Fixpoint search_at (fuel k : nat) (node : Z) (cur : nat) : sm (option nat * Z) :=
  match k with
  | O => sout
  | S k =>
      if node =? -1 then sret (Some cur, node)
      else let+ u := set_cur 0 in
           let+ r := s_matchnode fuel node cur (-1) in
           match r with
           | None => sret (None, node)
           | Some cur => let+ n := slift (mlift (get ns node)) in search_at fuel k (n_next n) cur
           end
  end.
(** The outer loop, lines 4467-4486, from position [b] on. *)
Fixpoint search_loop (fuel k : nat) (node : Z) (b e : nat) : sm (option (nat * nat)) :=
  match k with
  | O => sout
  | S k =>
      let+ r := search_at fuel fuel node b in
      match fst r with
      | Some cur => sret (Some (b, cur))
      | None => if (S b =? e)%nat then sret None else search_loop fuel k (snd r) (S b) e
      end
  end.
End match_.

(** trex_match, lines 4449-4458. *)
Definition trex_match (ns : list node) (icase : bool) (tid : nat) (text : str) (fuel : nat) : sm bool :=
  let+ u := set_cur 0 in
  let+ r := s_matchnode ns icase tid text 0 (List.length text) fuel 0 0 (-1) in
  sret (match r with Some s => (s =? List.length text)%nat | None => false end).
(** trex_searchrange, lines 4460-4487, between two positions of the text: [*out_begin] and [*out_end], if
    it returns TRex_True.  [_first] is 0: the first node that is made (line 4407). *)
Definition trex_searchrange (ns : list node) (icase : bool) (tid : nat) (text : str) (b e : nat) (fuel : nat) : sm (option (nat * nat)) :=
  if (e <=? b)%nat then sret None else search_loop ns icase tid text b e fuel fuel 0 b e.
(** trex_search, lines 4489-4491. *)
Definition trex_search (ns : list node) (icase : bool) (tid : nat) (text : str) (fuel : nat) : sm (option (nat * nat)) :=
  trex_searchrange ns icase tid text 0 (List.length text) fuel.
(** trex_getsubexpcount, lines 4493-4495. *)
Definition trex_getsubexpcount (x : trex) : Z := x_nsub x.
(** trex_getsubexp, lines 4497-4502: [None] is TRex_False. *)
Definition trex_getsubexp (x : trex) (st : subs) (n : Z) : mat (option place) :=
  if (n <? 0) || (x_nsub x <=? n) then MRet None
  else match get_sub n st with MRet (p, _) => MRet (Some p) | MUB => MUB | MOut => MOut end.
(** The end of trex_compile, lines 4431-4432: nothing matched yet ([_currsubexp] is not set before it is
    used). *)
Definition fresh_subs (x : trex) : subs := mkSubs 0 (repeat nowhere (Z.to_nat (x_nsub x))).
(** What a call returns, without the sub-expressions. *)
Definition outcome {A} (m : mat (A * subs)) : mat A := mbind m (fun r => MRet (fst r)).
