(** The constants of the bindings. *)
From Coq Require Import ZArith List String Bool.
From Verif.Model Require Import Config Constants LuaBinding.
Import ListNotations.
Open Scope Z_scope.

Definition pair_eqb (x y : string * Z) : bool := String.eqb (fst x) (fst y) && Z.eqb (snd x) (snd y).
Lemma pair_eqb_eq x y : pair_eqb x y = true <-> x = y.
Proof.
  destruct x as [a n], y as [b m]. unfold pair_eqb. cbn [fst snd].
  rewrite andb_true_iff, String.eqb_eq, Z.eqb_eq. split; [intros [-> ->]; reflexivity|intros E; injection E; auto].
Qed.
Definition included (l l' : list (string * Z)) : bool := forallb (fun x => existsb (pair_eqb x) l') l.
Lemma included_In l l' x : included l l' = true -> In x l -> In x l'.
Proof.
  intros H I. unfold included in H. rewrite forallb_forall in H. apply H in I.
  apply existsb_exists in I as (y & I & E). apply pair_eqb_eq in E. subst y. exact I.
Qed.

Definition prefixed (p : string) (l : list (string * Z)) : list (string * Z) := map (fun x => (append p (fst x), snd x)) l.
Lemma In_prefixed p l n v : In (n, v) (prefixed p l) <-> exists m, n = append p m /\ In (m, v) l.
Proof.
  unfold prefixed. rewrite in_map_iff. split.
  - intros ([m w] & E & I). cbn in E. injection E as <- <-. eauto.
  - intros (m & -> & I). exists (m, v). auto.
Qed.

Lemma same l l' x : included l l' = true -> included l' l = true -> In x l <-> In x l'.
Proof. intros A B. split; apply included_In; assumption. Qed.

Lemma append_inj p a b : append p a = append p b -> a = b.
Proof. induction p as [|c p IH]; cbn; [auto|]. intros E. injection E as E. auto. Qed.

Lemma node_python n v : In (n, v) node_constants <-> In (n, v) python_constants.
Proof. apply same; vm_compute; reflexivity. Qed.
Lemma lua_python n v : In (append "_" n, v) lua_constants <-> In (n, v) python_constants.
Proof.
  rewrite (same lua_constants (prefixed "_" python_constants)) by (vm_compute; reflexivity).
  rewrite In_prefixed. split; [|eauto]. intros (m & E & I). apply append_inj in E. subst. exact I.
Qed.
Lemma lua_prefix n v : In (n, v) lua_constants -> exists m, n = append "_" m.
Proof.
  rewrite (same lua_constants (prefixed "_" python_constants)) by (vm_compute; reflexivity).
  rewrite In_prefixed. intros (m & E & _). eauto.
Qed.

Lemma python_core n v : In (n, v) python_constants <->
  (n = "UNLIMITED"%string /\ v = UNLIMITED) \/ (n = "VERSION"%string /\ v = VERSION) \/
  (n = "RESULT_SUCCESS"%string /\ v = SUCCESS) \/
  (exists m, n = append "RESULT_" m /\ In (m, v) result_enum) \/
  (exists m, n = append "ERROR_" m /\ In (m, v) error_enum /\ v <> SUCCESS).
Proof.
  rewrite (same python_constants
    (("UNLIMITED"%string, UNLIMITED) :: ("VERSION"%string, VERSION) :: ("RESULT_SUCCESS"%string, SUCCESS) ::
     prefixed "RESULT_" result_enum ++ prefixed "ERROR_" (tl error_enum))) by (vm_compute; reflexivity).
  cbn [In]. rewrite in_app_iff, !In_prefixed.
  assert (forall m, In (m, v) (tl error_enum) <-> In (m, v) error_enum /\ v <> SUCCESS) as T.
  { intros m. unfold error_enum. cbn [tl In]. split.
    - intros H. split; [right; exact H|]. intros ->.
      repeat (destruct H as [H|H]; [injection H; discriminate|]). destruct H.
    - intros [[H|H] N]; [injection H as _ H; congruence|exact H]. }
  split.
  - intros [H|[H|[H|[H|H]]]].
    + injection H as <- <-. auto.
    + injection H as <- <-. auto.
    + injection H as <- <-. auto.
    + auto 6.
    + destruct H as (m & E & H). do 4 right. exists m. rewrite <- T. auto.
  - intros [[-> ->]|[[-> ->]|[[-> ->]|[H|(m & E & H)]]]]; auto 6.
    do 4 right. exists m. rewrite T. auto.
Qed.

Lemma python_once : NoDup (map fst python_constants).
Proof.
  assert (forall l : list string, (fix nd l := match l with [] => true | x :: l => negb (existsb (String.eqb x) l) && nd l end) l = true -> NoDup l) as G.
  { induction l as [|x l IH]; intros H; [constructor|]. apply andb_true_iff in H as [A B]. constructor; [|auto].
    intros I. apply negb_true_iff in A. assert (existsb (String.eqb x) l = true) as X; [|congruence].
    apply existsb_exists. exists x. split; [exact I|apply String.eqb_refl]. }
  apply G. vm_compute. reflexivity.
Qed.
Lemma NoDup_one {A B} (l : list (A * B)) n v w : NoDup (map fst l) -> In (n, v) l -> In (n, w) l -> v = w.
Proof.
  induction l as [|[m u] l IH]; [intros _ []|]. cbn [map fst]. intros D. inversion D as [|? ? N D']. subst.
  intros [E|I] [E'|I'].
  - congruence.
  - injection E as -> ->. destruct N. apply in_map_iff. exists (n, w). auto.
  - injection E' as -> ->. destruct N. apply in_map_iff. exists (n, v). auto.
  - auto.
Qed.
Lemma python_fun n v w : In (n, v) python_constants -> In (n, w) python_constants -> v = w.
Proof. exact (NoDup_one _ n v w python_once). Qed.
