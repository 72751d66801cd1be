(** * The grid of bisection cells: addresses, indices, shared sides *)
From Verif Require Import PyBase Rounding_Model Rounding_Proofs Poly_Model Refine_Model Refine_Spec Cache_Model Cache_Proofs.
Open Scope Z_scope.

(** Address of a cell: the choices made, the latest first; false is left or bottom. *)
Definition path : Type := list bool.
Definition bitZ (b : bool) : Z := if b then 1 else 0.

Definition wider_b (P : Z * Z) (q : rect) : bool :=
  Qltb ((y2 q - y1 q) / pow10 (- snd P)) ((x2 q - x1 q) / pow10 (- fst P)).

Definition child (P : Z * Z) (b : bool) (q : rect) : rect :=
  if wider_b P q then
    if b then mkRect ((x1 q + x2 q) / 2) (x2 q) (y1 q) (y2 q)
    else mkRect (x1 q) ((x1 q + x2 q) / 2) (y1 q) (y2 q)
  else
    if b then mkRect (x1 q) (x2 q) ((y1 q + y2 q) / 2) (y2 q)
    else mkRect (x1 q) (x2 q) (y1 q) ((y1 q + y2 q) / 2).

(** Sides of a cell. *)
Inductive eidx : Type := EB | ER | ET | EL.
Definition eopp (i : eidx) : eidx := match i with EB => ET | ET => EB | ER => EL | EL => ER end.
Definition ehor (i : eidx) : bool := match i with EB | ET => true | _ => false end.
Definition elevel (q : rect) (i : eidx) : Q := match i with EB => y1 q | ET => y2 q | ER => x2 q | EL => x1 q end.
Definition elo (q : rect) (i : eidx) : Q := if ehor i then x1 q else y1 q.
Definition ehi (q : rect) (i : eidx) : Q := if ehor i then x2 q else y2 q.
Definition ekey (q : rect) (i : eidx) : ckey :=
  match i with
  | EB => ((x1 q, y1 q), (x2 q, y1 q))
  | ER => ((x2 q, y1 q), (x2 q, y2 q))
  | ET => ((x2 q, y2 q), (x1 q, y2 q))
  | EL => ((x1 q, y2 q), (x1 q, y1 q))
  end.
Definition rkey (k : ckey) : ckey := (snd k, fst k).

Lemma edges_keys q : edges q = map (ekey q) [EB; ER; ET; EL].
Proof. reflexivity. Qed.

Section Grid.
  Variables (P : Z * Z) (R0 : rect).
  Hypothesis wide0 : (x1 R0 < x2 R0 /\ y1 R0 < y2 R0)%Q.

  Fixpoint cell (p : path) : rect :=
    match p with
    | [] => R0
    | b :: p' => child P b (cell p')
    end.

  (** Sizes depend on the depth only. *)
  Fixpoint dims (k : nat) : Q * Q :=
    match k with
    | O => (x2 R0 - x1 R0, y2 R0 - y1 R0)%Q
    | S k' => let '(w, h) := dims k' in
              if Qltb (h / pow10 (- snd P)) (w / pow10 (- fst P)) then (w / 2, h)%Q else (w, h / 2)%Q
    end.
  Definition wd (k : nat) : Q := fst (dims k).
  Definition ht (k : nat) : Q := snd (dims k).
  Definition dir (k : nat) : bool := Qltb (ht k / pow10 (- snd P)) (wd k / pow10 (- fst P)).

  Lemma wd_S k : wd (S k) = if dir k then (wd k / 2)%Q else wd k.
  Proof. unfold wd, ht, dir. cbn [dims]. unfold wd, ht. destruct (dims k) as [w h]. cbn [fst snd]. destruct (Qltb _ _); reflexivity. Qed.
  Lemma ht_S k : ht (S k) = if dir k then ht k else (ht k / 2)%Q.
  Proof. unfold wd, ht, dir. cbn [dims]. unfold wd, ht. destruct (dims k) as [w h]. cbn [fst snd]. destruct (Qltb _ _); reflexivity. Qed.

  Lemma dims_pos k : (0 < wd k)%Q /\ (0 < ht k)%Q.
  Proof.
    induction k as [|k [I1 I2]].
    - unfold wd, ht. cbn [dims fst snd]. destruct wide0. split; Lqa.lra.
    - rewrite wd_S, ht_S. destruct (dir k); split; try assumption;
        apply Qlt_shift_div_l; try reflexivity; Lqa.lra.
  Qed.

  Lemma half_le a : (0 < a)%Q -> (a / 2 <= a)%Q.
  Proof. intro H. apply Qle_shift_div_r; [reflexivity|]. Lqa.lra. Qed.

  Lemma dims_mono k k' : (k <= k')%nat -> (wd k' <= wd k)%Q /\ (ht k' <= ht k)%Q.
  Proof.
    induction 1 as [|k' H [I1 I2]]; [split; Lqa.lra|]. rewrite wd_S, ht_S.
    destruct (dims_pos k') as [P1 P2]. pose proof (half_le _ P1). pose proof (half_le _ P2).
    destruct (dir k'); split; Lqa.lra.
  Qed.

  Fixpoint ix (p : path) : Z :=
    match p with [] => 0 | b :: p' => if dir (List.length p') then 2 * ix p' + bitZ b else ix p' end.
  Fixpoint iy (p : path) : Z :=
    match p with [] => 0 | b :: p' => if dir (List.length p') then iy p' else 2 * iy p' + bitZ b end.

  Definition gx (k : nat) (i : Z) : Q := (x1 R0 + inject_Z i * wd k)%Q.
  Definition gy (k : nat) (j : Z) : Q := (y1 R0 + inject_Z j * ht k)%Q.

  Lemma Qltb_cong a b a' b' : (a == a')%Q -> (b == b')%Q -> Qltb a b = Qltb a' b'.
  Proof. intros A B. unfold Qltb. f_equal. rewrite A, B. reflexivity. Qed.

  Lemma injZ_2 i : (inject_Z (2 * i) == 2 * inject_Z i)%Q.
  Proof. rewrite inject_Z_mult. reflexivity. Qed.

  Lemma cell_coords p : let k := List.length p in
    (x1 (cell p) == gx k (ix p) /\ x2 (cell p) == gx k (ix p + 1) /\
     y1 (cell p) == gy k (iy p) /\ y2 (cell p) == gy k (iy p + 1))%Q.
  Proof.
    induction p as [|b p (I1 & I2 & I3 & I4)].
    - cbn. unfold gx, gy, wd, ht. cbn [dims fst snd]. unfold inject_Z. repeat split; ring.
    - cbn zeta in *. cbn [List.length cell ix iy].
      set (k := List.length p) in *.
      assert (W : wider_b P (cell p) = dir k).
      { unfold wider_b, dir. apply Qltb_cong.
        - rewrite I3, I4. unfold gy. rewrite inject_Z_plus. change (inject_Z 1) with 1%Q.
          apply Qmult_comp; [ring|reflexivity].
        - rewrite I1, I2. unfold gx. rewrite inject_Z_plus. change (inject_Z 1) with 1%Q.
          apply Qmult_comp; [ring|reflexivity]. }
      unfold child. rewrite W. unfold gx, gy in *. rewrite wd_S, ht_S.
      rewrite inject_Z_plus in I2, I4. change (inject_Z 1) with 1%Q in I2, I4.
      destruct (dir k), b; cbn [x1 x2 y1 y2 bitZ]; rewrite ?inject_Z_plus, ?injZ_2, ?I1, ?I2, ?I3, ?I4;
        change (inject_Z 1) with 1%Q; change (inject_Z 0) with 0%Q; repeat split; field.
  Qed.

  Lemma cell_dims p : (x2 (cell p) - x1 (cell p) == wd (List.length p) /\ y2 (cell p) - y1 (cell p) == ht (List.length p))%Q.
  Proof.
    destruct (cell_coords p) as (A & B & C & D). rewrite A, B, C, D. unfold gx, gy.
    rewrite !inject_Z_plus. change (inject_Z 1) with 1%Q. split; ring.
  Qed.

  Lemma cell_wide p : (x1 (cell p) < x2 (cell p) /\ y1 (cell p) < y2 (cell p))%Q.
  Proof. destruct (cell_dims p) as [A B]. destruct (dims_pos (List.length p)) as [C D]. split; Lqa.lra. Qed.

  (** A cell and the one it is part of. *)
  Lemma ancestor_index rho p : let k := List.length p in let k' := List.length (rho ++ p) in
    exists c d : Z, 0 < c /\ 0 < d /\
      (wd k == inject_Z c * wd k')%Q /\ (ht k == inject_Z d * ht k')%Q /\
      ix p * c <= ix (rho ++ p) < (ix p + 1) * c /\ iy p * d <= iy (rho ++ p) < (iy p + 1) * d.
  Proof.
    induction rho as [|b rho (c & d & Hc & Hd & Wx & Wy & Ix & Iy)]; cbn zeta in *.
    - exists 1, 1. cbn [app]. change (inject_Z 1) with 1%Q. repeat split; try lia; ring.
    - cbn [app List.length ix iy]. rewrite wd_S, ht_S.
      set (k' := List.length (rho ++ p)) in *. destruct (dir k').
      + exists (2 * c), d. rewrite injZ_2. repeat split; try lia; try (rewrite Wx; field); try assumption; destruct b; cbn [bitZ]; lia.
      + exists c, (2 * d). rewrite injZ_2. repeat split; try lia; try (rewrite Wy; field); try assumption; destruct b; cbn [bitZ]; lia.
  Qed.

  Lemma index_inj p : forall q, List.length p = List.length q -> ix p = ix q -> iy p = iy q -> p = q.
  Proof.
    induction p as [|b p IH]; intros [|b' q] HL HX HY; try discriminate; [reflexivity|].
    cbn [List.length] in HL. injection HL as HL. cbn [ix iy] in HX, HY. rewrite HL in HX, HY.
    destruct (dir (List.length q)).
    - assert (bitZ b = bitZ b' /\ ix p = ix q) as [B X] by (destruct b, b'; cbn [bitZ] in *; lia).
      f_equal; [destruct b, b'; cbn in B; congruence|]. apply IH; assumption.
    - assert (bitZ b = bitZ b' /\ iy p = iy q) as [B X] by (destruct b, b'; cbn [bitZ] in *; lia).
      f_equal; [destruct b, b'; cbn in B; congruence|]. apply IH; assumption.
  Qed.

  (** Grid numbers of sides. *)
  Definition lev_i (p : path) (i : eidx) : Z :=
    match i with EB => iy p | ET => iy p + 1 | EL => ix p | ER => ix p + 1 end.
  Definition glev (h : bool) (k : nat) (i : Z) : Q := if h then gy k i else gx k i.
  Definition gpos (h : bool) (k : nat) (i : Z) : Q := if h then gx k i else gy k i.
  Definition pos_i (p : path) (h : bool) : Z := if h then ix p else iy p.

  Lemma edge_coords p i : let k := List.length p in
    (elevel (cell p) i == glev (ehor i) k (lev_i p i) /\
     elo (cell p) i == gpos (ehor i) k (pos_i p (ehor i)) /\
     ehi (cell p) i == gpos (ehor i) k (pos_i p (ehor i) + 1))%Q.
  Proof.
    destruct (cell_coords p) as (A & B & C & D). cbn zeta.
    destruct i; cbn [elevel elo ehi ehor glev gpos lev_i pos_i]; auto.
  Qed.

  Lemma cancel_index a b (u : Q) (c : Z) : ~ (u == 0)%Q ->
    (inject_Z a * (inject_Z c * u) == inject_Z b * u)%Q -> a * c = b.
  Proof.
    intros N H.
    assert (E : (inject_Z (a * c) == inject_Z b)%Q).
    { rewrite inject_Z_mult. apply (Qmult_inj_r _ _ u N). rewrite <- H. ring. }
    unfold Qeq, inject_Z in E. cbn in E. lia.
  Qed.

  Lemma gx_scale k k' c a b : (wd k == inject_Z c * wd k')%Q -> (gx k a == gx k' b)%Q -> a * c = b.
  Proof.
    intros W H. apply (cancel_index a b (wd k') c); [pose proof (proj1 (dims_pos k')); Lqa.lra|].
    rewrite <- W. unfold gx in H. apply (Qplus_inj_l _ _ (x1 R0)). exact H.
  Qed.
  Lemma gy_scale k k' c a b : (ht k == inject_Z c * ht k')%Q -> (gy k a == gy k' b)%Q -> a * c = b.
  Proof.
    intros W H. apply (cancel_index a b (ht k') c); [pose proof (proj2 (dims_pos k')); Lqa.lra|].
    rewrite <- W. unfold gy in H. apply (Qplus_inj_l _ _ (y1 R0)). exact H.
  Qed.

  Lemma between_unique a b c n : 0 < c -> a * c <= n < (a + 1) * c -> n = b * c -> b = a.
  Proof. intros. nia. Qed.
  Lemma between_unique' a b c n : 0 < c -> a * c <= n < (a + 1) * c -> n + 1 = (b + 1) * c -> b = a.
  Proof. intros. nia. Qed.

  (** If a side of a small cell lies on the line of a side of a cell of depth k, with a
      common end, then the depth-k cell around the small one has this side, and on the same
      side if the small one has. *)
  Lemma touch p rho q i j : List.length q = List.length p -> ehor i = ehor j ->
    (elevel (cell p) i == elevel (cell (rho ++ q)) j)%Q ->
    (elo (cell p) i == elo (cell (rho ++ q)) j \/ ehi (cell p) i == ehi (cell (rho ++ q)) j)%Q ->
    (elevel (cell q) j == elevel (cell p) i /\ elo (cell q) j == elo (cell p) i /\ ehi (cell q) j == ehi (cell p) i)%Q /\
    (i = j -> q = p).
  Proof.
    intros HL HH HV HE.
    destruct (edge_coords p i) as (A1 & A2 & A3). destruct (edge_coords (rho ++ q) j) as (B1 & B2 & B3).
    destruct (edge_coords q j) as (C1 & C2 & C3). cbn zeta in *.
    destruct (ancestor_index rho q) as (c & d & Hc & Hd & Wx & Wy & Ix & Iy). cbn zeta in *.
    rewrite <- HH in B1, B2, B3, C1, C2, C3. rewrite HL in *.
    rewrite A1, B1 in HV. rewrite A2, A3, B2, B3 in HE.
    assert (LEV : lev_i q j = lev_i p i /\ pos_i q (ehor i) = pos_i p (ehor i)).
    { destruct (ehor i) eqn:Hi; cbn [glev gpos pos_i] in *.
      - apply (gy_scale _ _ d _ _ Wy) in HV.
        assert (X : ix p = ix q).
        { destruct HE as [HE|HE]; apply (gx_scale _ _ c _ _ Wx) in HE.
          - apply (between_unique _ _ c _ Hc Ix). lia.
          - apply (between_unique' _ _ c _ Hc Ix). lia. }
        split; [|congruence].
        destruct i, j; try discriminate; cbn [lev_i] in *; nia.
      - apply (gx_scale _ _ c _ _ Wx) in HV.
        assert (X : iy p = iy q).
        { destruct HE as [HE|HE]; apply (gy_scale _ _ d _ _ Wy) in HE.
          - apply (between_unique _ _ d _ Hd Iy). lia.
          - apply (between_unique' _ _ d _ Hd Iy). lia. }
        split; [|congruence].
        destruct i, j; try discriminate; cbn [lev_i] in *; nia. }
    destruct LEV as [L1 L2]. split.
    - rewrite C1, C2, C3, A1, A2, A3, L1, L2. repeat split; reflexivity.
    - intros <-. apply index_inj; [exact HL| |]; destruct i; cbn [lev_i ehor pos_i] in *; lia.
  Qed.

  Lemma longer p q i j : (List.length q <= List.length p)%nat -> ehor i = ehor j ->
    (elo (cell p) i == elo (cell q) j -> ehi (cell p) i <= ehi (cell q) j)%Q /\
    (ehi (cell p) i == ehi (cell q) j -> elo (cell q) j <= elo (cell p) i)%Q.
  Proof.
    intros HL HH. destruct (dims_mono _ _ HL) as [M1 M2].
    destruct (cell_dims p) as [D1 D2]. destruct (cell_dims q) as [D3 D4].
    unfold elo, ehi. rewrite <- HH. destruct (ehor i); split; intro; Lqa.lra.
  Qed.

  (** Oriented sides. *)
  Lemma key_same_side p q i j : ckey_eqb (ekey (cell p) i) (ekey (cell q) j) = true ->
    i = j /\ (elevel (cell p) i == elevel (cell q) j /\ elo (cell p) i == elo (cell q) j /\ ehi (cell p) i == ehi (cell q) j)%Q.
  Proof.
    intro H. apply ckey_iff in H. destruct H as [[A B] [C D]].
    destruct (cell_wide p) as [P1 P2]. destruct (cell_wide q) as [Q1 Q2].
    destruct i, j; unfold elo, ehi; cbn [ekey fst snd re im ehor elevel] in *;
      (split; [reflexivity|repeat split; Lqa.lra]) || (exfalso; Lqa.lra).
  Qed.

  Lemma key_opposite p q i : (elevel (cell q) (eopp i) == elevel (cell p) i /\
      elo (cell q) (eopp i) == elo (cell p) i /\ ehi (cell q) (eopp i) == ehi (cell p) i)%Q ->
    ckey_eqb (rkey (ekey (cell q) (eopp i))) (ekey (cell p) i) = true.
  Proof.
    intros (A & B & C). apply ckey_iff. unfold elo, ehi, ceq in *.
    destruct i; cbn [rkey ekey eopp fst snd re im ehor elevel] in *; repeat split; Lqa.lra || assumption.
  Qed.

  Lemma same_horizontal i j : ehor i = ehor j -> j = i \/ j = eopp i.
  Proof. destruct i, j; cbn; intro; try discriminate; auto. Qed.

  Lemma split_path (p : path) k : (k <= List.length p)%nat -> exists rho q, p = rho ++ q /\ List.length q = k.
  Proof.
    intro H. exists (firstn (List.length p - k) p), (skipn (List.length p - k) p).
    split; [symmetry; apply firstn_skipn|]. rewrite skipn_length. lia.
  Qed.

  Definition nested (p q : path) : Prop := (exists rho, p = rho ++ q) \/ (exists rho, q = rho ++ p).

  Lemma nested_sym p q : nested p q -> nested q p.
  Proof. intros [H|H]; [right|left]; exact H. Qed.

  (** Cells with a common oriented side are nested. *)
  Lemma key_nested p q i j : ckey_eqb (ekey (cell p) i) (ekey (cell q) j) = true -> nested p q.
  Proof.
    intro H. destruct (key_same_side p q i j H) as (<- & A & B & C).
    destruct (Nat.le_ge_cases (List.length p) (List.length q)) as [L|L].
    - destruct (split_path q _ L) as (rho & q0 & -> & L0).
      destruct (touch p rho q0 i i L0 eq_refl A (or_introl B)) as [_ T]. right. exists rho. rewrite (T eq_refl). reflexivity.
    - destruct (split_path p _ L) as (rho & p0 & -> & L0).
      destruct (touch q rho p0 i i L0 eq_refl (Qeq_sym _ _ A) (or_introl (Qeq_sym _ _ B))) as [_ T].
      left. exists rho. rewrite (T eq_refl). reflexivity.
  Qed.
End Grid.
