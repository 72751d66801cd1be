(** A concrete search meeting the hypotheses of C63: a double zero at (1+i)/3 and a simple
    one at (5+4i)/3 in [0,2] x [0,2], no decimals requested. *)
From Coq Require Import Reals Qreals Qminmax.
From Verif Require Import PyBase Rounding_Model Container_Model Container_Spec Finder_Model Finder_Spec Finder_Proofs
  Poly_Model Refine_Model Refine_Spec Zeros_Spec Zeros_Proofs Refine_Examples EndToEnd_Model EndToEnd_Spec
  EndToEnd_Proofs EndToEnd_Proofs2.
Open Scope Z_scope.

(** Finite decimals; bisection stays among them, thirds are not. *)
Definition decimal (q : Q) : Prop := exists (k : nat) (m : Z), (q * inject_Z (10 ^ Z.of_nat k) == inject_Z m)%Q.

Lemma decimal_mid a b : decimal a -> decimal b -> decimal ((a + b) / 2).
Proof.
  intros (k & m & Hk) (j & n & Hj).
  exists (k + j + 1)%nat, (5 * (m * 10 ^ Z.of_nat j + n * 10 ^ Z.of_nat k))%Z.
  replace (Z.of_nat (k + j + 1)) with (Z.of_nat k + Z.of_nat j + 1) by lia.
  rewrite !Z.pow_add_r, !inject_Z_mult, inject_Z_plus, !inject_Z_mult by lia.
  rewrite <- Hk, <- Hj. change (inject_Z (10 ^ 1)) with 10%Q. field.
Qed.

Lemma third_not_decimal (n : Z) : n mod 3 <> 0 -> ~ decimal (n # 3).
Proof.
  intros Hn (k & m & H). unfold Qeq, Qmult, inject_Z in H. cbn [Qnum Qden] in H.
  assert (H3 : (n * 10 ^ Z.of_nat k) mod 3 = 0).
  { replace (n * 10 ^ Z.of_nat k) with (3 * m) by lia. rewrite Z.mul_comm. apply Z.mod_mul. lia. }
  assert (H1 : (10 ^ Z.of_nat k) mod 3 = 1).
  { clear. induction k as [|k IH]; [reflexivity|].
    replace (Z.of_nat (S k)) with (1 + Z.of_nat k) by lia. rewrite Z.pow_add_r by lia.
    rewrite Z.mul_mod, IH by lia. reflexivity. }
  rewrite Z.mul_mod, H1 in H3 by lia. rewrite Z.mul_1_r, Z.mod_mod in H3 by lia. exact (Hn H3).
Qed.

Definition decimal_rect (r : rect) : Prop := decimal (x1 r) /\ decimal (x2 r) /\ decimal (y1 r) /\ decimal (y2 r).

Lemma cells_decimal P r q : decimal_rect r -> cell_of P r q -> decimal_rect q.
Proof.
  intros Hr H. induction H as [|q H (A & B & C & D) _ _|q H (A & B & C & D) _ _|q H (A & B & C & D) _ _|q H (A & B & C & D) _ _];
    [exact Hr|..]; unfold decimal_rect; cbn [x1 x2 y1 y2]; repeat split; try assumption;
    apply decimal_mid; assumption.
Qed.

Lemma decimal_compat a b : (a == b)%Q -> decimal a -> decimal b.
Proof. intros E (k & m & H). exists k, m. rewrite <- E. exact H. Qed.

Lemma decimal_strict a b z : decimal a -> decimal b -> ~ decimal z ->
  (Q2R a <= Q2R z <= Q2R b)%R -> (Q2R a < Q2R z < Q2R b)%R.
Proof.
  intros Ha Hb Hz [L U]. split; apply Rnot_le_lt; intro C; apply Hz.
  - apply (decimal_compat a); [|exact Ha]. apply Rle_Qle in L, C. apply Qle_antisym; assumption.
  - apply (decimal_compat b); [|exact Hb]. apply Rle_Qle in U, C. apply Qle_antisym; assumption.
Qed.

Lemma demo_thirds z : In z demo_qzeros -> ~ decimal (re z) /\ ~ decimal (im z).
Proof.
  intros [<-|[<-|[<-|[]]]]; split; apply third_not_decimal; vm_compute; discriminate.
Qed.

Lemma demo_reliable P r : decimal_rect r -> reliable (exact_env demo_qzeros P) demo_zeros P r.
Proof.
  intros Hr q s Hq. pose proof (cells_decimal P r q Hr Hq) as (A & B & C & D). split.
  - intros z Hz [Zx Zy]. unfold demo_zeros in Hz. apply in_map_iff in Hz. destruct Hz as (w & <- & Hw).
    destruct (demo_thirds w Hw) as [T1 T2]. split; cbn [fst snd qpoint] in *; apply decimal_strict; assumption.
  - exists tt, [], (inject_Z (Z.of_nat (qcount demo_qzeros q)), 0%Q).
    split; [reflexivity|]. split; [|intros c []].
    unfold demo_zeros. rewrite count_qcount. unfold re. cbn [fst].
    setoid_replace (inject_Z (Z.of_nat (qcount demo_qzeros q)) - inject_Z (Z.of_nat (qcount demo_qzeros q)))%Q
      with 0%Q by ring. discriminate.
Qed.

Definition demo_f : holoFunc := fun z => Ok z.
Definition demo_x : rctx := serial_context demo_f None (0, 0) (2, 0)%Q (0, 2)%Q None.

Lemma demo_x_decimal : decimal_rect (rect_of demo_x).
Proof.
  unfold decimal_rect. repeat split; [exists 1%nat, (-1)|exists 1%nat, 22|exists 1%nat, (-3)|exists 1%nat, 24];
    vm_compute; reflexivity.
Qed.

Lemma demo_jobs_decimal job : In job (createRootJobs 2 demo_x) -> decimal_rect (rect_of job).
Proof.
  assert (G : forall q, In q (map rect_of (createRootJobs 2 demo_x)) -> decimal_rect q).
  { set (l := map rect_of (createRootJobs 2 demo_x)). vm_compute in l.
    intros q Hq. unfold l in Hq.
    assert (T : forall n d m, (Zpos d * m = n * 1000)%Z -> decimal (n # d)).
    { intros n d m H. exists 3%nat, m. unfold Qeq, Qmult, inject_Z. cbn [Qnum Qden].
      rewrite Pos.mul_1_r. change (10 ^ Z.of_nat 3)%Z with 1000. lia. }
    repeat (destruct Hq as [<-|Hq]); [..|destruct Hq];
      unfold decimal_rect; cbn [x1 x2 y1 y2]; repeat split.
    all: match goal with |- decimal (?n # ?d) =>
      let m := eval vm_compute in (n * 1000 / Zpos d)%Z in apply (T n d m); vm_compute; reflexivity end. }
  intro H. apply G. apply in_map. exact H.
Qed.

Lemma demo_separated : separated 2 (1, 1) demo_zeros /\ separated (11 / 10) (0, 0) demo_zeros.
Proof.
  assert (E1 : Q2R (pow10 (- (1))) = (1 / 10)%R) by (vm_compute (pow10 _); unfold Q2R; cbn [Qnum Qden]; reflexivity).
  assert (E0 : Q2R (pow10 (- (0))) = 1%R) by (vm_compute (pow10 _); unfold Q2R; cbn [Qnum Qden]; field).
  assert (A : Q2R (1 # 3) = (1 / 3)%R) by reflexivity.
  assert (B : Q2R (5 # 3) = (5 / 3)%R) by reflexivity.
  split; intros z1 z2 H1 H2; cbn [fst snd]; rewrite ?E1, ?E0; intros X _;
    destruct H1 as [<-|[<-|[<-|[]]]]; destruct H2 as [<-|[<-|[<-|[]]]]; try reflexivity; exfalso;
    revert X; unfold qpoint, re; cbn [fst snd]; rewrite A, B; unfold Rabs; destruct (Rcase_abs _); Lra.lra.
Qed.

Lemma demo_halvings :
  halvings (Qabs (2 - 0) + 3 * pow10 (- 1)) 1 5 /\ halvings (Qabs (0 - 2) + 7 * pow10 (- 1)) 1 5.
Proof. split; vm_compute; reflexivity. Qed.

Lemma demo_output :
  reported_pairs (fun l => l) (fst (calculateRoots demo_f None (0, 0)
    (argument_algorithm (exact_env demo_qzeros (1, 1)) Simple 11 (fun _ => true) tt)
    (2, 0)%Q (0, 2)%Q None (rc_init None (3, 3)))) =
  [((2 # 5)%Q, (3 # 10)%Q, 2); ((17 # 10)%Q, (13 # 10)%Q, 1)].
Proof. vm_compute. reflexivity. Qed.
