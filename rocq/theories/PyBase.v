(** * PyBase: common vocabulary of the model (no PyZEAL code in here)

    Python values that every subsystem needs: exceptions as values, complex
    numbers with rational coordinates, dictionaries as insertion ordered
    association lists.  Nothing in this file models a function of /repo; it
    models the part of the Python language the other files rely on. *)
From Coq Require Export List Bool ZArith QArith Qround Qpower Qabs Lia Lqa String.
Export ListNotations.
Open Scope Z_scope.

(** Exceptions that occur in /repo/pyzeal (built-in and project specific). *)
Inductive exn : Type :=
| ValueError
| NotImplementedError
| KeyError
| IndexError
| RuntimeError
| RecursionError
| JSONDecodeError
| FileNotFoundError
| OSError                       (* and other subclasses: IsADirectoryError, NotADirectoryError, SameFileError *)
| ImportError
| ModuleNotFoundError
| TypeError
| UnboundLocalError
| AttributeError
| InvalidServiceConfiguration   (* utils/configuration_exception.py *)
| InvalidSettingException       (* settings/invalid_setting_exception.py *)
| KeyboardInterrupt
| SystemExit (code : Z)
| OtherExn (n : nat).           (* anything raised by user code *)

(** [except RuntimeError] also catches the built-in subclasses NotImplementedError and
    RecursionError.  (A subclass defined by user code counts as its built-in base.) *)
Definition catches_RuntimeError (e : exn) : bool :=
  match e with RuntimeError | NotImplementedError | RecursionError => true | _ => false end.

(** Result of a call: a value or a raised exception. *)
Inductive res (A : Type) : Type :=
| Ok (a : A)
| Err (e : exn).
Arguments Ok {A} a.
Arguments Err {A} e.

Definition bind {A B} (m : res A) (k : A -> res B) : res B :=
  match m with Ok a => k a | Err e => Err e end.

Definition is_ok {A} (m : res A) : bool :=
  match m with Ok _ => true | Err _ => false end.

(** Complex numbers with exact rational coordinates.  Every finite double is
    such a number; floating point rounding of arithmetic is not modelled. *)
Definition cplx : Type := (Q * Q)%type.
Definition re (z : cplx) : Q := fst z.
Definition im (z : cplx) : Q := snd z.

Definition ceqb (z w : cplx) : bool :=
  Qeq_bool (re z) (re w) && Qeq_bool (im z) (im w).
Definition ceq (z w : cplx) : Prop := (re z == re w)%Q /\ (im z == im w)%Q.

Lemma ceqb_true z w : ceqb z w = true <-> ceq z w.
Proof.
  unfold ceqb, ceq. rewrite andb_true_iff, !Qeq_bool_iff. tauto.
Qed.

Lemma ceq_refl z : ceq z z.
Proof. split; reflexivity. Qed.
Lemma ceq_sym z w : ceq z w -> ceq w z.
Proof. intros [H1 H2]; split; symmetry; assumption. Qed.
Lemma ceq_trans z w v : ceq z w -> ceq w v -> ceq z v.
Proof. intros [H1 H2] [H3 H4]; split; etransitivity; eassumption. Qed.

(** [tRoot] of pyzeal_types/root_types.py: a (complex, order) tuple. *)
Definition root : Type := (cplx * Z)%type.

(** 10 ** p for an integer p of either sign. *)
Definition pow10 (p : Z) : Q := Qpower 10 p.

Lemma pow10_pos p : (0 < pow10 p)%Q.
Proof. unfold pow10. apply Qpower_0_lt. reflexivity. Qed.

Lemma pow10_plus p q : (pow10 (p + q) == pow10 p * pow10 q)%Q.
Proof. unfold pow10. apply Qpower_plus. discriminate. Qed.

Lemma pow10_0 : (pow10 0 == 1)%Q.
Proof. reflexivity. Qed.

Lemma pow10_inv p : (pow10 p * pow10 (- p) == 1)%Q.
Proof.
  rewrite <- pow10_plus. replace (p + - p)%Z with 0%Z by lia. reflexivity.
Qed.

Lemma pow10_succ p : (pow10 (p + 1) == 10 * pow10 p)%Q.
Proof.
  rewrite pow10_plus. replace (pow10 1) with 10%Q by reflexivity. ring.
Qed.

Lemma pow10_opp_succ p : (pow10 (- (p + 1)) == pow10 (- p) * (1 # 10))%Q.
Proof.
  replace (- (p + 1)) with (- p + - (1)) by lia.
  rewrite pow10_plus. reflexivity.
Qed.

(** Boolean comparisons of rationals, reflected. *)
Definition Qltb (x y : Q) : bool := negb (Qle_bool y x).
Lemma Qltb_true x y : Qltb x y = true <-> (x < y)%Q.
Proof.
  unfold Qltb. rewrite negb_true_iff. split; intro H.
  - apply Qnot_le_lt. intro C. apply Qle_bool_iff in C. congruence.
  - destruct (Qle_bool y x) eqn:E; [|reflexivity].
    apply Qle_bool_iff in E. exfalso. lra.
Qed.
Lemma Qltb_false x y : Qltb x y = false <-> (y <= x)%Q.
Proof.
  unfold Qltb. rewrite negb_false_iff. apply Qle_bool_iff.
Qed.
Lemma Qleb_true x y : Qle_bool x y = true <-> (x <= y)%Q.
Proof. apply Qle_bool_iff. Qed.
Lemma Qleb_false x y : Qle_bool x y = false <-> (y < x)%Q.
Proof.
  rewrite <- Qltb_true. unfold Qltb. rewrite negb_true_iff. tauto.
Qed.
Lemma Qeqb_true x y : Qeq_bool x y = true <-> (x == y)%Q.
Proof. apply Qeq_bool_iff. Qed.
Lemma Qeqb_false x y : Qeq_bool x y = false <-> ~ (x == y)%Q.
Proof.
  rewrite <- Qeqb_true. destruct (Qeq_bool x y); split; intro H; try congruence.
  all: exfalso; apply H; reflexivity.
Qed.

Lemma Qltb_spec x y : BoolSpec (x < y)%Q (y <= x)%Q (Qltb x y).
Proof.
  destruct (Qltb x y) eqn:E; constructor;
    [apply Qltb_true | apply Qltb_false]; exact E.
Qed.
Lemma Qleb_spec x y : BoolSpec (x <= y)%Q (y < x)%Q (Qle_bool x y).
Proof.
  destruct (Qle_bool x y) eqn:E; constructor;
    [apply Qleb_true | apply Qleb_false]; exact E.
Qed.
Lemma Qeqb_spec x y : BoolSpec (x == y)%Q (~ x == y)%Q (Qeq_bool x y).
Proof.
  destruct (Qeq_bool x y) eqn:E; constructor;
    [apply Qeqb_true | apply Qeqb_false]; exact E.
Qed.

(** Python dict with an insertion ordered iteration order (CPython >= 3.7):
    assigning to an existing key keeps its position. *)
Section Dict.
  Context {K V : Type} (eqb : K -> K -> bool).

  Fixpoint dget (k : K) (d : list (K * V)) : option V :=
    match d with
    | [] => None
    | (k', v) :: d' => if eqb k k' then Some v else dget k d'
    end.

  Fixpoint dset (k : K) (v : V) (d : list (K * V)) : list (K * V) :=
    match d with
    | [] => [(k, v)]
    | (k', v') :: d' =>
        if eqb k k' then (k', v) :: d' else (k', v') :: dset k v d'
    end.

  Fixpoint ddel (k : K) (d : list (K * V)) : list (K * V) :=
    match d with
    | [] => []
    | (k', v') :: d' => if eqb k k' then ddel k d' else (k', v') :: ddel k d'
    end.

  Hypothesis eqb_eq : forall a b, eqb a b = true <-> a = b.

  Lemma eqb_refl' a : eqb a a = true.
  Proof. apply eqb_eq; reflexivity. Qed.

  Lemma eqb_neq' a b : a <> b -> eqb a b = false.
  Proof.
    intro H. destruct (eqb a b) eqn:E; [|reflexivity].
    apply eqb_eq in E. contradiction.
  Qed.

  Lemma dget_dset_same k v d : dget k (dset k v d) = Some v.
  Proof.
    induction d as [|[k' v'] d IH]; cbn.
    - rewrite eqb_refl'. reflexivity.
    - destruct (eqb k k') eqn:E; cbn; rewrite E; auto.
  Qed.

  Lemma dget_dset_other k k' v d : k <> k' -> dget k' (dset k v d) = dget k' d.
  Proof.
    intro N. induction d as [|[q w] d IH]; cbn.
    - rewrite eqb_neq' by congruence. reflexivity.
    - destruct (eqb k q) eqn:E; cbn.
      + apply eqb_eq in E; subst q. rewrite eqb_neq' by congruence. reflexivity.
      + rewrite IH. reflexivity.
  Qed.

  Lemma dget_ddel_same k d : dget k (ddel k d) = None.
  Proof.
    induction d as [|[q w] d IH]; cbn; [reflexivity|].
    destruct (eqb k q) eqn:E; cbn; [|rewrite E]; exact IH.
  Qed.

  Lemma dget_ddel_other k k' d : k <> k' -> dget k' (ddel k d) = dget k' d.
  Proof.
    intro N. induction d as [|[q w] d IH]; cbn; [reflexivity|].
    destruct (eqb k q) eqn:E; cbn.
    - apply eqb_eq in E; subst q. rewrite (eqb_neq' k' k) by congruence. exact IH.
    - rewrite IH. reflexivity.
  Qed.

  Lemma dget_In k v d : dget k d = Some v -> In (k, v) d.
  Proof.
    induction d as [|[q w] d IH]; cbn; [discriminate|].
    destruct (eqb k q) eqn:E.
    - apply eqb_eq in E; subst q. intros [= ->]. left; reflexivity.
    - intro H. right. apply IH, H.
  Qed.

  Lemma dget_None_notin k d : dget k d = None <-> ~ In k (map fst d).
  Proof.
    induction d as [|[q w] d IH]; cbn; [tauto|].
    destruct (eqb k q) eqn:E.
    - apply eqb_eq in E; subst q. split; [discriminate|tauto].
    - rewrite IH. split.
      + intros H [C|C]; [subst q; rewrite eqb_refl' in E; discriminate|tauto].
      + tauto.
  Qed.

  Lemma In_dget k v d : NoDup (map fst d) -> In (k, v) d -> dget k d = Some v.
  Proof.
    induction d as [|[q w] d IH]; cbn; [tauto|].
    intros ND [H|H].
    - inversion H; subst. rewrite eqb_refl'. reflexivity.
    - inversion ND as [|x l N1 N2]; subst.
      destruct (eqb k q) eqn:E.
      + apply eqb_eq in E; subst q. exfalso. apply N1.
        apply in_map_iff. exists (k, v); auto.
      + apply IH; assumption.
  Qed.

  Lemma dset_keys_in k v d : In k (map fst d) -> map fst (dset k v d) = map fst d.
  Proof.
    induction d as [|[q w] d IH]; cbn; [tauto|].
    destruct (eqb k q) eqn:E; cbn; [reflexivity|].
    intros [H|H]; [subst q; rewrite eqb_refl' in E; discriminate|].
    rewrite IH by exact H. reflexivity.
  Qed.

  Lemma dset_keys_new k v d : ~ In k (map fst d) -> dset k v d = d ++ [(k, v)].
  Proof.
    induction d as [|[q w] d IH]; cbn; [reflexivity|].
    intro H. rewrite eqb_neq' by (intro; subst; tauto).
    rewrite IH by tauto. reflexivity.
  Qed.

  Lemma NoDup_snoc {A} (l : list A) (a : A) : NoDup l -> ~ In a l -> NoDup (l ++ [a]).
  Proof.
    intros HN HI. apply (NoDup_Add (a := a) (l := l)).
    - rewrite <- (app_nil_r l) at 1. apply Add_app.
    - split; assumption.
  Qed.

  Lemma dset_NoDup k v d : NoDup (map fst d) -> NoDup (map fst (dset k v d)).
  Proof.
    intro H. destruct (in_dec (fun a b : K =>
      match eqb a b as x return eqb a b = x -> {a = b} + {a <> b} with
      | true => fun e => left (proj1 (eqb_eq a b) e)
      | false => fun e => right (fun q => eq_ind_r (fun z => eqb a z = false -> False)
                (fun e' => ltac:(rewrite eqb_refl' in e'; discriminate)) (eq_sym q) e)
      end eq_refl) k (map fst d)) as [I|I].
    - rewrite dset_keys_in; assumption.
    - rewrite dset_keys_new by exact I. rewrite map_app. apply NoDup_snoc; assumption.
  Qed.

  Lemma ddel_keys k q d : In q (map fst (ddel k d)) <-> In q (map fst d) /\ q <> k.
  Proof.
    induction d as [|[r w] d IH]; cbn; [tauto|].
    destruct (eqb k r) eqn:E; cbn.
    - apply eqb_eq in E; subst r. rewrite IH. intuition congruence.
    - rewrite IH. assert (r <> k) by (intro; subst; rewrite eqb_refl' in E; discriminate).
      intuition congruence.
  Qed.

  Lemma ddel_NoDup k d : NoDup (map fst d) -> NoDup (map fst (ddel k d)).
  Proof.
    induction d as [|[r w] d IH]; cbn; [auto|].
    intro H. inversion H as [|x l N1 N2]; subst.
    destruct (eqb k r); cbn; [auto|].
    constructor; [|auto]. rewrite ddel_keys. tauto.
  Qed.

  Lemma In_ddel k q v d : In (q, v) (ddel k d) <-> In (q, v) d /\ q <> k.
  Proof.
    induction d as [|[r w] d IH]; cbn; [tauto|].
    destruct (eqb k r) eqn:E; cbn.
    - apply eqb_eq in E; subst r. rewrite IH.
      split; [tauto|]. intros [[H|H] N]; [congruence|tauto].
    - rewrite IH. assert (r <> k) by (intro; subst; rewrite eqb_refl' in E; discriminate).
      split; [|tauto]. intros [H'|H']; [inversion H'; subst; tauto|tauto].
  Qed.
End Dict.

(** Everything about [fold_left] that histories need. *)
Lemma fold_left_snoc {A B} (f : A -> B -> A) (l : list B) (b : B) (a : A) :
  fold_left f (l ++ [b]) a = f (fold_left f l a) b.
Proof. rewrite fold_left_app. reflexivity. Qed.
