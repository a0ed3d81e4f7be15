(** C101: what a judged program can read. *)
From Coq Require Import ZArith Bool List Ascii String Lia.
From Verif.Base Require Import CInt CStr.
From Verif.Model Require Import Config Runner Seccomp Child Names Reading.
From Verif.Spec Require Import RunSpec SandboxSpec NamesSpec ReadingSpec Syscalls ChildSamples FilesSamples ContainSamples.
From Verif.Proofs Require Import ChildClaims FilesFacts NamesProofs NamesUse ReadingProofs.
Import ListNotations.
Open Scope list_scope.
Open Scope Z_scope.

(** /case/1.in and /case/1.out belong to root, /run to user 65534; 1.out is readable to root only. *)
Definition dir (up : nat) (l : list (string * nat)) : kind := IsDir up (map (fun e => (lit (fst e), snd e)) l).
Definition cases (result : string) (mode : Z) : fs :=
  [mkNode (dir 0 [("case", 1%nat); ("run", 4%nat)]) 0 0 493;
   mkNode (dir 0 [("1.in", 2%nat); ("1.out", 3%nat)]) 0 0 493;
   mkNode (IsFile (lit "1 2")) 0 0 384;
   mkNode (IsFile (lit result)) 0 0 mode;
   mkNode (dir 0 []) 65534 65534 493].
Definition nobody : who := mkWho 65534 [65534] 4.
Definition result_file (i : nat) : Prop := i = 3%nat.
Lemma cases_equal a b mode : List.length (lit a) = List.length (lit b) -> equal_but result_file (cases a mode) (cases b mode).
Proof.
  intros L i. do 3 (destruct i as [|i]; [left; reflexivity|]). destruct i as [|i]; [|left; reflexivity].
  right. split; [reflexivity|]. do 2 eexists. split; [reflexivity|]. split; [reflexivity|]. constructor. exact L.
Qed.
Lemma cases_hidden a i : result_file i -> exists n, nth_error (cases a 384) i = Some n /\ hidden nobody n.
Proof.
  intros ->. eexists. split; [reflexivity|]. split; [|discriminate]. intros R. apply may_right in R. vm_compute in R. discriminate.
Qed.
(** It tries one thing after the other, and stops when it has read something. *)
Definition curious : strategy := fun past =>
  match past with
  | Contents _ :: _ => None
  | _ => nth_error [OpenRead (lit "/case/1.out"); Change (AChmod (lit "/case/1.out") 511); Change (ASymlink (lit "/case/1.out") (lit "x"));
                    OpenRead (lit "x"); Change (ALink (lit "/case/1.out") (lit "y")); ListDir (lit "/case"); Stat (lit "y") true;
                    Stat (lit "x") false; ReadLink (lit "x"); ReadHeld 3] (List.length past)
  end.

(** For every program of a user without the right to read some files: if it does not get them open, all answers to all its requests are the same
    whatever is in these files, in every number of steps, and so is all that it leaves behind but the files themselves. *)
Theorem C101_secret : forall umask u secret f steps F G held seen past,
  equal_but secret F G ->
  (forall i, secret i -> ~ In i seen /\ exists n, nth_error F i = Some n /\ hidden u n) ->
  let L := life umask u f steps (mkSt F held seen) past in
  let M := life umask u f steps (mkSt G held seen) past in
  snd L = snd M /\ equal_but secret (st_fs (fst L)) (st_fs (fst M)).
Proof. exact secret_kept. Qed.
Print Assumptions C101_secret.
Example C101_secret_example :
  equal_but result_file (cases "3" 384) (cases "4" 384) /\
  (forall i, result_file i -> ~ In i [2%nat] /\ exists n, nth_error (cases "3" 384) i = Some n /\ hidden nobody n) /\
  snd (life 18 nobody curious 10 (mkSt (cases "3" 384) [] [2%nat]) []) =
    [Contents (lit "/case/1.out"); Info 5 "link" 11 65534 65534 511; Info 3 "file" 1 0 0 384; Listing [(lit "1.in", 2%nat); (lit "1.out", 3%nat)]; Done; Refused; Done; Refused; Refused].
Proof.
  split; [apply cases_equal; reflexivity|]. split; [|vm_compute; reflexivity].
  intros i R. split; [rewrite R; cbn; intuition discriminate|exact (cases_hidden "3" i R)].
Qed.

(** The program of a call with a user and a group: files that this user has no right to read are secret to it, unless the caller hands on a
    descriptor of one, or the input path names one. *)
Theorem C101_judged : forall env log c k0 path a v k umask cwd obj secret f steps F G held,
  ready c k0 -> euid (k_cred k0) = 0 -> child_process env log c k0 = CExec path a v k ->
  uid c <> keep_id -> gid c <> keep_id ->
  equal_but secret F G ->
  (forall i, secret i -> exists n, nth_error F i = Some n /\ hidden (mkWho (uid c) [gid c] cwd) n) ->
  (forall n o, descriptor k0 n = Some o -> of_mode o = MRead \/ of_mode o = MOther -> ~ secret (obj o)) ->
  (forall o, input_path c = Some (of_path o) -> of_mode o = MRead -> ~ secret (obj o)) ->
  snd (life umask (person k cwd) f steps (mkSt F held (readable k obj)) []) =
  snd (life umask (person k cwd) f steps (mkSt G held (readable k obj)) []).
Proof. exact judged_secret. Qed.
Print Assumptions C101_judged.
(** The sample program: its input is object 2, which its user may not open but has open; all other open files are no files of the system. *)
Definition objects (o : ofile) : nat := if str_eqb (of_path o) (lit "/case/1.in") then 2%nat else 9%nat.
Example C101_judged_example :
  let k := io_state "/case/1.in" "/run/out" "/run/err" 100 in
  let c := io_config "/case/1.in" "/run/out" "/run/err" 100 in
  uid c <> keep_id /\ gid c <> keep_id /\ mkWho (uid c) [gid c] 4 = nobody /\
  (exists p a v, child_process (sample_child_env None) sample_log c sample_k0 = CExec p a v k) /\
  (forall n o, descriptor sample_k0 n = Some o -> ~ result_file (objects o)) /\
  snd (life 18 (person k 4) (fun past => nth_error [OpenRead (lit "/case/1.in"); ReadHeld 2] (List.length past)) 9
         (mkSt (cases "3" 384) [] (readable k objects)) []) = [Contents (lit "1 2"); Refused].
Proof.
  cbv zeta. split; [discriminate|]. split; [discriminate|]. split; [reflexivity|]. split; [apply io_exec; lia|].
  split; [|vm_compute; reflexivity]. intros n o _. unfold result_file, objects. destruct (str_eqb _ _); discriminate.
Qed.

(** Nor do several programs together, of whatever users without the right, in any order of their steps, with the judger opening (and
    emptying) whatever files in between: the programs end up in the same states with the same answers. *)
Theorem C101_together : forall secret ms F G l, equal_but secret F G ->
  (forall i, secret i -> exists n, nth_error F i = Some n /\ forall g, In g l -> ~ In i (g_seen g) /\ hidden (g_who g) n) ->
  snd (together (F, l) ms) = snd (together (G, l) ms) /\ equal_but secret (fst (together (F, l) ms)) (fst (together (G, l) ms)).
Proof. exact together_secret. Qed.
Print Assumptions C101_together.
(** One program leaves a link, the judger makes a file, another program follows the link and writes into a file the third one reads. *)
Definition ask_in_turn (l : list ask) : strategy := fun past => nth_error l (List.length past).
Definition three : list prog :=
  [mkProg 0 nobody (ask_in_turn [Change (ASymlink (lit "/case/1.out") (lit "/run/x")); Change (AMkdir (lit "/run/m") 511)]) [] [] [];
   mkProg 0 (mkWho 1000 [1000] 4) (ask_in_turn [OpenRead (lit "x"); Change (AOpen (lit "m/note") true true); Change (AStore 8 (lit "none"))]) [] [] [];
   mkProg 0 (mkWho 1001 [1001] 4) (ask_in_turn [OpenRead (lit "m/note"); ReadHeld 8]) [] [] []].
Definition in_turn : list move :=
  [Turn 0; Turn 0; Turn 1; Judge 18 (mkWho 0 [0] 4) (lit "out"); Turn 1; Turn 2; Turn 1; Turn 2; Turn 2].
Example C101_together_example :
  (forall i, result_file i -> exists n, nth_error (cases "3" 384) i = Some n /\ forall g, In g three -> ~ In i (g_seen g) /\ hidden (g_who g) n) /\
  map g_past (snd (together (cases "3" 384, three) in_turn)) = [[Done; Done]; [Done; Done; Refused]; [Contents (lit "none"); Opened 8]].
Proof.
  split; [|vm_compute; reflexivity]. intros i ->. eexists. split; [reflexivity|]. intros g I.
  assert (g_seen g = [] /\ (w_uid (g_who g) <> 0) /\ may 2 (g_who g) (mkNode (IsFile (lit "3")) 0 0 384) = false) as (A & B & C).
  { cbn in I. destruct I as [<-|[<-|[<-|[]]]]; (split; [reflexivity|split; [discriminate|reflexivity]]). }
  rewrite A. split; [intros []|]. split; [|exact B]. intros R. apply may_right in R. cbn [n_uid] in R. congruence.
Qed.

(** "Programs learn nothing of files they may not read" is false of the sizes: where a path leads to a file, its size is told. *)
Theorem C101_sizes_refuted : forall umask u F held seen p k ds pl i n data,
  path_leads u F p k ds pl -> (k <= 40)%nat -> reaches pl i -> nth_error F i = Some n -> n_kind n = IsFile data ->
  snd (respond umask u (mkSt F held seen) (Stat p true)) = Info i "file" (List.length data) (n_uid n) (n_gid n) (n_mode n).
Proof. exact sees_size. Qed.
Print Assumptions C101_sizes_refuted.
Example C101_sizes_example :
  snd (life 18 nobody curious 10 (mkSt (cases "YES" 384) [] []) []) <> snd (life 18 nobody curious 10 (mkSt (cases "NO" 384) [] []) []) /\
  (exists n, nth_error (cases "YES" 384) 3 = Some n /\ hidden nobody n).
Proof. split; [vm_compute; discriminate|exact (cases_hidden "YES" 3%nat eq_refl)]. Qed.

(** "A program sees only its input" is false of every file it has the right to read, and so of all files if it is root. *)
Theorem C101_only_input_refuted : forall umask u F held seen p k ds pl i n data,
  path_leads u F p k ds pl -> (k <= 40)%nat -> reaches pl i -> nth_error F i = Some n -> n_kind n = IsFile data -> has_right 2 u n ->
  let f := fun past => match past with [] => Some (OpenRead p) | [_] => Some (ReadHeld i) | _ => None end in
  snd (life umask u f 2 (mkSt F held seen) []) = [Contents data; Opened i].
Proof. exact reads_file. Qed.
Print Assumptions C101_only_input_refuted.
(** The expected result with mode 0644; all paths to it are those of C100_path. *)
Example C101_only_input_example :
  locate nobody (cases "3" 420) (lit "../case/1.out") true = Entry 1 (lit "1.out") 3 /\
  snd (life 18 nobody (fun past => match past with [] => Some (OpenRead (lit "../case/1.out")) | [_] => Some (ReadHeld 3) | _ => None end) 2
         (mkSt (cases "3" 420) [] []) []) = [Contents (lit "3"); Opened 3].
Proof. split; vm_compute; reflexivity. Qed.

(** The names in a directory are told to those with the right to read it. *)
Theorem C101_listing : forall umask u F held seen p l,
  snd (respond umask u (mkSt F held seen) (ListDir p)) = Listing l <->
  exists k ds pl i n up, (k <= 40)%nat /\ path_leads u F p k ds pl /\ reaches pl i /\ nth_error F i = Some n /\
                         n_kind n = IsDir up l /\ has_right 2 u n.
Proof. exact lists_dir. Qed.
Print Assumptions C101_listing.
Example C101_listing_example :
  let F := cases "3" 420 ++ [mkNode (dir 4 [("a", 2%nat)]) 0 0 457] in
  let G := upd F 4 (mkNode (dir 0 [("d", 5%nat)]) 65534 65534 493) in
  snd (respond 18 nobody (mkSt G [] []) (ListDir (lit "d"))) = Refused /\
  snd (respond 18 (mkWho 0 [0] 4) (mkSt G [] []) (ListDir (lit "d/."))) = Listing [(lit "a", 2%nat)] /\
  snd (respond 18 nobody (mkSt G [] []) (Stat (lit "d/a") true)) = Info 2 "file" 3 0 0 384.
Proof. repeat split; vm_compute; reflexivity. Qed.

(** No rule is in the way of that: all of them allow opening for reading, and reading. *)
Theorem C101_rules : forall env log c k0 path a v k sc,
  ready c k0 -> child_process env log c k0 = CExec path a v k -> sc_native sc = true ->
  (exists fl, open_flags sc = Some fl /\ read_only fl) \/ In (sc_name sc) ["read"; "fstat"; "newfstatat"; "readlink"; "access"]%string ->
  filters_action (k_filter k) sc = ActAllow.
Proof. exact reading_allowed. Qed.
Print Assumptions C101_rules.
Example C101_rules_example :
  filters_action (k_filter (io_state "i" "o" "e" 100)) (mkSys true "openat" (fun _ => 0)) = ActAllow /\
  filters_action (k_filter (io_state "i" "o" "e" 100)) (mkSys true "getdents64" (fun _ => 0)) = ActKill /\
  (exists fl, open_flags (mkSys true "openat" (fun _ => 0)) = Some fl /\ read_only fl).
Proof. split; [vm_compute; reflexivity|]. split; [vm_compute; reflexivity|]. exists 0. split; reflexivity. Qed.
