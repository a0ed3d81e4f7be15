(** Regular expressions: src/argtable3.c:3625-3657, 3816-4458 (the T-Rex library and
    arg_rex).  A pattern is compiled into an array of nodes that refer to each other
    by index; matching follows them.

    Simplifications: the positions of sub-expressions (_matches, _currsubexp), which
    nothing in argtable3 reads, and trex_searchrange, which nothing calls, are left out here (see Model/TrexSearch.v);
    allocations succeed; the char type is
    signed, ctype is that of the C locale, where bytes from 128 on are in no class.
    The text and the pattern are read with their terminators; reading behind them is
    [UB].  Recursion is bounded by [fuel]. *)
From Coq Require Import ZArith Bool List Ascii String.
From Verif.Base Require Import CInt CStr CMem.
From Verif.Model Require Import ArgInt.
Import ListNotations.
Open Scope list_scope.
Open Scope Z_scope.

(** <ctype.h> in the C locale. *)
Definition between (a c b : N) : bool := (N.leb a c && N.leb c b)%bool.
Definition isprint (c : ascii) : bool := between 32 (code c) 126.
Definition isdigit (c : ascii) : bool := between 48 (code c) 57.
Definition isupper (c : ascii) : bool := between 65 (code c) 90.
Definition islower (c : ascii) : bool := between 97 (code c) 122.
Definition isalpha (c : ascii) : bool := isupper c || islower c.
Definition isalnum (c : ascii) : bool := isalpha c || isdigit c.
Definition isxdigit (c : ascii) : bool := isdigit c || between 65 (code c) 70 || between 97 (code c) 102.
Definition iscntrl (c : ascii) : bool := between 0 (code c) 31 || N.eqb (code c) 127.
Definition ispunct (c : ascii) : bool := between 33 (code c) 126 && negb (isalnum c).
(** [char] as int, and [tolower], [toupper] on int. *)
Definition sgn (c : ascii) : Z := let n := Z.of_N (code c) in if 128 <=? n then n - 256 else n.
Definition tolower_z (z : Z) : Z := if (65 <=? z) && (z <=? 90) then z + 32 else z.
Definition toupper_z (z : Z) : Z := if (97 <=? z) && (z <=? 122) then z - 32 else z.

(** Lines 3816-3828: node types above the characters (MAX_CHAR is 0xFF, line 3572). *)
Definition OP_GREEDY : Z := 256.
Definition OP_OR : Z := 257.
Definition OP_EXPR : Z := 258.
Definition OP_NOCAPEXPR : Z := 259.
Definition OP_DOT : Z := 260.
Definition OP_CLASS : Z := 261.
Definition OP_CCLASS : Z := 262.
Definition OP_NCLASS : Z := 263.
Definition OP_RANGE : Z := 264.
Definition OP_EOL : Z := 266.
Definition OP_BOL : Z := 267.
Definition OP_WB : Z := 268.

(** Lines 3841-3846. *)
Record node := mkN { n_type : Z; n_left : Z; n_right : Z; n_next : Z }.
(** The members of struct TRex (3848-3863) that change while a pattern is compiled:
    the nodes in use ([_nsize] of them), [_nallocated], [_nsubexpr] and [_p] as a position. *)
Record trex := mkT { x_nodes : list node; x_alloc : Z; x_nsub : Z; x_p : nat }.

(** What compiling a part can do: give a value; leave by longjmp (3883-3887); be undefined;
    need more [fuel]. *)
Inductive pres (A : Type) : Type := PVal (a : A) (x : trex) | PErr | PUB | POut.
Arguments PVal {A} a x. Arguments PErr {A}. Arguments PUB {A}. Arguments POut {A}.
Definition pm (A : Type) : Type := trex -> pres A.
Definition ret {A} (a : A) : pm A := fun x => PVal a x.
Definition bind {A B} (m : pm A) (k : A -> pm B) : pm B :=
  fun x => match m x with PVal a x => k a x | PErr => PErr | PUB => PUB | POut => POut end.
Definition fail {A} : pm A := fun _ => PErr.
Definition of_cres {A} (r : cres A) : pm A := fun x => match r with Val a => PVal a x | UB => PUB end.
Notation "'do' x <- m ; k" := (bind m (fun x => k)) (at level 60, x name, right associativity).
Notation "'do_' m ; k" := (bind m (fun _ => k)) (at level 60, right associativity).

(** [*exp->_p] and [exp->_p++]. *)
Definition peek (pat : str) : pm ascii := fun x => of_cres (load (terminated pat) (x_p x)) x.
Definition skip : pm unit := fun x => PVal tt (mkT (x_nodes x) (x_alloc x) (x_nsub x) (S (x_p x))).

(** trex_newnode, lines 3867-3881.  The array has room for [x_alloc] nodes. *)
Definition newnode (type : Z) : pm Z := fun x =>
  let n := mkN type (-1) (if type =? OP_EXPR then x_nsub x else -1) (-1) in
  let nsub := if type =? OP_EXPR then x_nsub x + 1 else x_nsub x in
  let size := Z.of_nat (List.length (x_nodes x)) in
  match (if x_alloc x <? size + 1 then int_op (x_alloc x * 2) else Val (x_alloc x)) with
  | Val alloc => if size <? alloc then PVal size (mkT (x_nodes x ++ [n]) alloc nsub (x_p x)) else PUB
  | UB => PUB
  end.

(** [exp->_nodes[i]], and assignments to its members. *)
Definition get (ns : list node) (i : Z) : cres node :=
  if i <? 0 then UB else match nth_error ns (Z.to_nat i) with Some n => Val n | None => UB end.
Fixpoint update (ns : list node) (i : nat) (f : node -> node) : list node :=
  match ns, i with
  | [], _ => []
  | n :: ns, O => f n :: ns
  | n :: ns, S i => n :: update ns i f
  end.
Definition set (i : Z) (f : node -> node) : pm unit := fun x =>
  match get (x_nodes x) i with
  | Val _ => PVal tt (mkT (update (x_nodes x) (Z.to_nat i) f) (x_alloc x) (x_nsub x) (x_p x))
  | UB => PUB
  end.
Definition with_left (v : Z) (n : node) := mkN (n_type n) v (n_right n) (n_next n).
Definition with_right (v : Z) (n : node) := mkN (n_type n) (n_left n) v (n_next n).
Definition with_next (v : Z) (n : node) := mkN (n_type n) (n_left n) (n_right n) v.
Definition node_of (i : Z) : pm node := fun x => of_cres (get (x_nodes x) i) x.

(** trex_expect, lines 3889-3893. *)
Definition expect (pat : str) (c : ascii) : pm unit :=
  do d <- peek pat; if aeqb d c then skip else fail.

(** The characters behind a backslash that stand for others: lines 3899-3913 and 3932-3946. *)
Definition control (c : ascii) : option ascii :=
  if aeqb c "v" then Some "011"%char else if aeqb c "n" then Some "010"%char else if aeqb c "t" then Some "009"%char
  else if aeqb c "r" then Some "013"%char else if aeqb c "f" then Some "012"%char else None.
(** trex_escapechar, lines 3895-3920. *)
Definition escapechar (pat : str) : pm ascii :=
  do c <- peek pat;
  if aeqb c "\" then
    do_ skip; do d <- peek pat; do_ skip; ret (match control d with Some e => e | None => d end)
  else if negb (isprint c) then fail
  else do_ skip; ret c.

(** Lines 3948-3963. *)
Definition classes : str := lit "aAwWsSdDxXcCpPlu".
Definition is_class (c : ascii) : bool := existsb (aeqb c) classes.
(** trex_charnode, lines 3928-3988. *)
Definition charnode (pat : str) (isclass : bool) : pm Z :=
  do c <- peek pat;
  if aeqb c "\" then
    do_ skip; do d <- peek pat;
    match control d with
    | Some e => do_ skip; newnode (sgn e)
    | None =>
        if is_class d then do_ skip; do n <- newnode OP_CCLASS; do_ set n (with_left (sgn d)); ret n
        else if (aeqb d "b" || aeqb d "B") && negb isclass then
          do n <- newnode OP_WB; do_ set n (with_left (sgn d)); do_ skip; ret n
        else do_ skip; newnode (sgn d)
    end
  else if negb (isprint c) then fail
  else do_ skip; newnode (sgn c).

(** The loop of trex_class, lines 4001-4027 ([exp->_eol] is NULL here). *)
Fixpoint class_loop (fuel : nat) (pat : str) (first chain : Z) : pm (Z * Z) :=
  match fuel with
  | O => fun _ => POut
  | S fuel =>
      do c <- peek pat;
      if aeqb c "]" then ret (first, chain)
      else if aeqb c "-" && negb (first =? -1) then
        do_ skip; do r <- newnode OP_RANGE; do d <- peek pat;
        if sgn d <? first then fail
        else do n <- node_of first;
             if n_type n =? OP_CCLASS then fail
             else do_ set r (with_left (n_type n)); do t <- escapechar pat;
                  do_ set r (with_right (sgn t)); do_ set chain (with_next r); class_loop fuel pat (-1) r
      else if negb (first =? -1) then
        do_ set chain (with_next first); do n <- charnode pat true; class_loop fuel pat n first
      else do n <- charnode pat true; class_loop fuel pat n chain
  end.
(** trex_class, lines 3989-4038. *)
Definition class (fuel : nat) (pat : str) : pm Z :=
  do c <- peek pat;
  do ret_ <- (if aeqb c "^" then do n <- newnode OP_NCLASS; do_ skip; ret n else newnode OP_CLASS);
  do c <- peek pat;
  if aeqb c "]" then fail
  else do fc <- class_loop fuel pat (-1) ret_;
       do_ (if fst fc =? -1 then ret tt else set (snd fc) (with_next (fst fc)));
       do n <- node_of ret_;
       do_ set ret_ (with_left (n_next n)); do_ set ret_ (with_next (-1)); ret ret_.

(** trex_parsenumber, lines 4040-4051. *)
Fixpoint number_loop (fuel : nat) (pat : str) (v positions : Z) : pm Z :=
  match fuel with
  | O => fun _ => POut
  | S fuel =>
      do c <- peek pat;
      if isdigit c then
        do v10 <- of_cres (int_op (v * 10)); do v <- of_cres (int_op (v10 + (sgn c - 48))); do_ skip;
        if positions =? 1000000000 then fail
        else do positions <- of_cres (int_op (positions * 10)); number_loop fuel pat v positions
      else ret v
  end.
Definition parsenumber (fuel : nat) (pat : str) : pm Z :=
  do c <- peek pat; do_ skip; number_loop fuel pat (sgn c - 48) 10.
(** [(unsigned short)]. *)
Definition cast_u16 (z : Z) : Z := z mod 65536.

(** Lines 4089-4136: the repetition, if there is one. *)
Definition repetition (fuel : nat) (pat : str) : pm (option (Z * Z)) :=
  do c <- peek pat;
  if aeqb c "*" then do_ skip; ret (Some (0, 65535))
  else if aeqb c "+" then do_ skip; ret (Some (1, 65535))
  else if aeqb c "?" then do_ skip; ret (Some (0, 1))
  else if aeqb c "{" then
    do_ skip; do d <- peek pat;
    if negb (isdigit d) then fail
    else do n <- parsenumber fuel pat;
         let p0 := cast_u16 n in
         do d <- peek pat;
         if aeqb d "}" then do_ skip; ret (Some (p0, p0))
         else if aeqb d "," then
           do_ skip; do d <- peek pat;
           do p1 <- (if isdigit d then do m <- parsenumber fuel pat; ret (cast_u16 m) else ret 65535);
           do_ expect pat "}"; ret (Some (p0, p1))
         else fail
  else ret None.
(** [((p0) << 16) | p1] as int, line 4140: the shift leaves int from 32768 on. *)
Definition pack (p0 p1 : Z) : cres Z := cbind (int_op (Z.shiftl p0 16)) (fun h => Val (Z.lor h p1)).

(** trex_element, lines 4053-4151, and trex_list, lines 4153-4175. *)
Fixpoint element (fuel : nat) (pat : str) : pm Z :=
  match fuel with
  | O => fun _ => POut
  | S fuel =>
      do c <- peek pat;
      do r <- (if aeqb c "(" then
                 do_ skip; do d <- peek pat;
                 do e <- (if aeqb d "?" then do_ skip; do_ expect pat ":"; newnode OP_NOCAPEXPR else newnode OP_EXPR);
                 do l <- list_ fuel pat; do_ set e (with_left l); do_ expect pat ")"; ret e
               else if aeqb c "[" then do_ skip; do e <- class fuel pat; do_ expect pat "]"; ret e
               else if aeqb c "$" then do_ skip; newnode OP_EOL
               else if aeqb c "." then do_ skip; newnode OP_DOT
               else charnode pat false);
      do p <- repetition fuel pat;
      do r <- (match p with
               | Some (p0, p1) => do n <- newnode OP_GREEDY; do_ set n (with_left r); do b <- of_cres (pack p0 p1);
                                 do_ set n (with_right b); ret n
               | None => ret r
               end);
      do c <- peek pat;
      if aeqb c "|" || aeqb c ")" || aeqb c "*" || aeqb c "+" || aeqb c NUL then ret r
      else do n <- element fuel pat; do_ set r (with_next n); ret r
  end
with list_ (fuel : nat) (pat : str) : pm Z :=
  match fuel with
  | O => fun _ => POut
  | S fuel =>
      do c <- peek pat;
      do r <- (if aeqb c "^" then do_ skip; do b <- newnode OP_BOL; do e <- element fuel pat; do_ set b (with_next e); ret b
               else element fuel pat);
      do c <- peek pat;
      if aeqb c "|" then
        do_ skip; do t <- newnode OP_OR; do_ set t (with_left r);
        do l <- list_ fuel pat; do_ set t (with_right l); ret t
      else ret r
  end.

(** trex_compile, lines 4398-4438: [PErr] is the NULL it returns.  The recursion takes no more
    than two calls for each byte of the pattern. *)
Definition compile (pat : str) : pres (list node) :=
  (do first <- newnode OP_EXPR;
   do l <- list_ (2 * List.length pat + 4) pat;
   do_ set first (with_left l);
   do c <- peek pat;
   if aeqb c NUL then fun x => PVal (x_nodes x) x else fail)
  (mkT [] (cast_int (Z.of_nat (List.length pat))) 0 0).

(** ** Matching *)
(** trex_matchcclass, lines 4177-4213. *)
Definition matchcclass (id : Z) (c : ascii) : bool :=
  if id =? sgn "a" then isalpha c else if id =? sgn "A" then negb (isalpha c)
  else if id =? sgn "w" then isalnum c || aeqb c "_" else if id =? sgn "W" then negb (isalnum c) && negb (aeqb c "_")
  else if id =? sgn "s" then isspace c else if id =? sgn "S" then negb (isspace c)
  else if id =? sgn "d" then isdigit c else if id =? sgn "D" then negb (isdigit c)
  else if id =? sgn "x" then isxdigit c else if id =? sgn "X" then negb (isxdigit c)
  else if id =? sgn "c" then iscntrl c else if id =? sgn "C" then negb (iscntrl c)
  else if id =? sgn "p" then ispunct c else if id =? sgn "P" then negb (ispunct c)
  else if id =? sgn "l" then islower c else if id =? sgn "u" then isupper c else false.

(** A character against a node that stands for one: lines 4234-4240 and 4385-4391. *)
Definition same_char (icase : bool) (c : ascii) (t : Z) : bool :=
  if icase then (sgn c =? tolower_z t) || (sgn c =? toupper_z t) else sgn c =? t.
(** Lines 4217-4241. *)
Definition in_item (icase : bool) (c : ascii) (n : node) : bool :=
  if n_type n =? OP_RANGE then
    if icase then ((toupper_z (n_left n) <=? sgn c) && (sgn c <=? toupper_z (n_right n))) ||
                  ((tolower_z (n_left n) <=? sgn c) && (sgn c <=? tolower_z (n_right n)))
    else (n_left n <=? sgn c) && (sgn c <=? n_right n)
  else if n_type n =? OP_CCLASS then matchcclass (n_left n) c
  else same_char icase c (n_type n).

(** What a match can do: return a position or NULL; be undefined; need more [fuel]. *)
Inductive mat (A : Type) : Type := MRet (a : A) | MUB | MOut.
Arguments MRet {A} a. Arguments MUB {A}. Arguments MOut {A}.
Definition mbind {A B} (m : mat A) (k : A -> mat B) : mat B := match m with MRet a => k a | MUB => MUB | MOut => MOut end.
Definition mlift {A} (r : cres A) : mat A := match r with Val a => MRet a | UB => MUB end.
Notation "'let*' x := m 'in' k" := (mbind m (fun x => k)) (at level 60, x name, right associativity).
Definition char_ (text : str) (s : nat) : mat ascii := mlift (load (terminated text) s).

(** trex_matchclass, lines 4215-4244. *)
Fixpoint matchclass (fuel : nat) (ns : list node) (icase : bool) (i : Z) (c : ascii) : mat bool :=
  match fuel with
  | O => MOut
  | S fuel =>
      let* n := mlift (get ns i) in
      if in_item icase c n then MRet true
      else if n_next n =? -1 then MRet false
      else matchclass fuel ns icase (n_next n) c
  end.
(** Lines 4372-4377, 4379-4383 and 4385-4393: one character. *)
Definition one (ok : bool) (s : nat) : option nat := if ok then Some (S s) else None.
(** Lines 4280-4285 and 4293-4299: enough repetitions, and not too many. *)
Definition enough (p0 p1 n : Z) : bool :=
  ((p0 =? p1) && (p0 =? n)) || ((p0 <=? n) && (p1 =? 65535)) || ((p0 <=? n) && (n <=? p1)).
Definition minimum (right : Z) : Z := Z.land (Z.shiftr right 16) 65535.
Definition maximum (right : Z) : Z := Z.land right 65535.

(** trex_matchnode, lines 4246-4395; [next] is the index of a node, -1 for NULL. *)
Section match_.
Variables (ns : list node) (icase : bool) (text : str).
(** The loop of OP_GREEDY, lines 4261-4292: [m] matches a node; [good] and the number of matches. *)
Fixpoint greedy_loop (m : Z -> nat -> Z -> mat (option nat)) (k : nat) (left stop_ next : Z) (p0 p1 : Z) (s good : nat) (n : Z) : mat (nat * Z) :=
  match k with
  | O => MOut
  | S k =>
      if (n =? 65535) || (n <? p1) then
        let* r := m left s stop_ in
        match r with
        | None => MRet (good, n)
        | Some s =>
            let n := n + 1 in
            let* stops :=
              (if stop_ =? -1 then MRet false
               else let* g := mlift (get ns stop_) in
                    if negb (n_type g =? OP_GREEDY) || negb (minimum (n_right g) =? 0) then
                      let* gnext :=
                        (if negb (n_next g =? -1) then MRet (n_next g)
                         else if next =? -1 then MRet (-1)
                         else let* nn := mlift (get ns next) in MRet (n_next nn)) in
                      let* stop := m stop_ s gnext in
                      MRet (match stop with Some _ => enough p0 p1 n | None => false end)
                    else MRet false) in
            if stops then MRet (s, n)
            else if (List.length text <=? s)%nat then MRet (s, n)
            else greedy_loop m k left stop_ next p0 p1 s s n
        end
      else MRet (good, n)
  end.
(** A chain of nodes: the loops of OP_OR, lines 4304-4317 ([inner = false]: the next node is
    not passed on), and of OP_EXPR, lines 4332-4346. *)
Fixpoint chain_loop (m : Z -> nat -> Z -> mat (option nat)) (k : nat) (inner : bool) (i : Z) (s : nat) (next : Z) : mat (option nat) :=
  match k with
  | O => MOut
  | S k =>
      let* n := mlift (get ns i) in
      let* r := m i s (if inner then (if n_next n =? -1 then next else n_next n) else -1) in
      match r with
      | None => MRet None
      | Some s => if n_next n =? -1 then MRet (Some s) else chain_loop m k inner (n_next n) s next
      end
  end.
Fixpoint matchnode (fuel : nat) (i : Z) (s : nat) (next : Z) : mat (option nat) :=
  match fuel with
  | O => MOut
  | S fuel =>
      let* n := mlift (get ns i) in
      let t := n_type n in
      if t =? OP_GREEDY then
        let p0 := minimum (n_right n) in let p1 := maximum (n_right n) in
        let stop_ := if n_next n =? -1 then next else n_next n in
        let* r := greedy_loop (matchnode fuel) fuel (n_left n) stop_ next p0 p1 s s 0 in
        MRet (if enough p0 p1 (snd r) then Some (fst r) else None)
      else if t =? OP_OR then
        let* r := chain_loop (matchnode fuel) fuel false (n_left n) s (-1) in
        match r with
        | Some s' => MRet (Some s')
        | None => chain_loop (matchnode fuel) fuel false (n_right n) s (-1)
        end
      else if (t =? OP_EXPR) || (t =? OP_NOCAPEXPR) then chain_loop (matchnode fuel) fuel true (n_left n) s next
      else if t =? OP_WB then
        let* c := char_ text s in
        let* boundary :=
          (if (s =? 0)%nat && negb (isspace c) then MRet true
           else let* before := (if (s =? List.length text)%nat
                                then let* d := (if (s =? 0)%nat then MUB else char_ text (s - 1)) in MRet (negb (isspace d))
                                else MRet false) in
                if before then MRet true
                else let* d := char_ text (s + 1) in MRet (xorb (isspace c) (isspace d))) in
        MRet (if Bool.eqb boundary (n_left n =? sgn "b") then Some s else None)
      else if t =? OP_BOL then MRet (if (s =? 0)%nat then Some s else None)
      else if t =? OP_EOL then MRet (if (s =? List.length text)%nat then Some s else None)
      else if t =? OP_DOT then if (List.length text <? s)%nat then MUB else MRet (Some (S s))
      else if (t =? OP_NCLASS) || (t =? OP_CLASS) then
        let* c := char_ text s in
        let* b := matchclass fuel ns icase (n_left n) c in
        MRet (one (Bool.eqb b (t =? OP_CLASS)) s)
      else let* c := char_ text s in
        if t =? OP_CCLASS then MRet (one (matchcclass (n_left n) c) s)
        else MRet (one (same_char icase c t) s)
  end.
(** trex_match, lines 4449-4458. *)
Definition match_text (fuel : nat) : mat bool :=
  let* r := matchnode fuel 0 0 (-1) in MRet (match r with Some s => (s =? List.length text)%nat | None => false end).
End match_.

(** arg_rex_scanfn, lines 3625-3657: [count] and [sval] after it, and the error code.  A pattern
    that does not compile leaves a null pointer that trex_match follows (line 4451). *)
Definition ARG_ERR_REGNOMATCH : Z := 7.
Definition rex_scan (fuel : nat) (pat : str) (icase : bool) (maxcount count : Z) (sval : list str) (argval : option str)
  : mat (Z * Z * list str) :=
  if count =? maxcount then MRet (ARG_ERR_MAXCOUNT, count, sval)
  else match argval with
       | None => MRet (0, count + 1, sval)
       | Some text =>
           match compile pat with
           | PVal ns _ =>
               let* b := match_text ns icase text fuel in
               MRet (if b then (0, count + 1, firstn (Z.to_nat count) sval ++ [text] ++ skipn (S (Z.to_nat count)) sval)
                     else (ARG_ERR_REGNOMATCH, count, sval))
           | PErr | PUB => MUB
           | POut => MOut
           end
       end.
