(** * Proofs for C86: lines, total functions, rectangles *)
From Coq Require Import Reals Qreals.
From Verif Require Import PyBase Cache_Proofs Container_Model Refine_Model Refine_Spec Cache_Model Sum_Model Sum_Spec Sum_Proofs Sum_Proofs2 Sum_Proofs3
  Sum_Proofs4 Quad_Proofs Nan_Model NanRefine_Model NanSum_Model NanSum_Spec NanSum_Proofs.
From Coq Require Import Lra Lqa.
Open Scope Z_scope.
Open Scope list_scope.

Lemma F2_in {A B} (P : A -> B -> Prop) l l' x : Forall2 P l l' -> In x l -> exists y, In y l' /\ P x y.
Proof.
  induction 1 as [|a b l l' H H2 IH]; intros HI; [contradiction|].
  destruct HI as [<-|HI]; [exists b; split; [left; reflexivity|exact H]|].
  destruct (IH HI) as (y & Y1 & Y2). exists y. split; [right; exact Y1|exact Y2].
Qed.

Section Line.
  Variables (f : cplx -> option cR) (delta : R) (mp : Q) (n : nat) (prec : Z * Z).
  Hypothesis delta_pos : (0 < delta)%R.
  Hypothesis n_big : (2 <= n)%nat.
  Hypothesis f_ceq : forall z z', ceq z z' -> f z = f z'.

  Lemma len2 {A} (a b : A) mid : (2 <= List.length (a :: mid ++ [b]))%nat.
  Proof. cbn [List.length]. rewrite app_length. cbn. lia. Qed.

  Lemma line_shape horiz level fuel t1 t2 st st' p : (t1 < t2)%Q -> unseen st horiz level ->
    osum_line f delta mp n prec fuel 0 (mkpoint horiz level t1) (mkpoint horiz level t2) st = (st', SumOk [] p) ->
    exists mid, let zs := mkpoint horiz level t1 :: mid ++ [mkpoint horiz level t2] in
      chain (on_line (coord_of horiz) (other_of horiz) level ((t2 - t1) / inject_Z (Z.of_nat (n - 1)))) zs /\
      (forall z, In z (uniform (mkpoint horiz level t1) (mkpoint horiz level t2) (n - 1)) -> exists z', In z' zs /\ ceq z z') /\
      (p = None <-> Exists (undefined f) zs) /\
      (forall vs, Forall2 (takes f) zs vs -> p = Some (Rsum (steps vs))).
  Proof.
    intros L HF H.
    destruct (ofresh_line f delta mp n prec delta_pos n_big horiz level fuel t1 t2 st st' p L HF H) as (mid & HP & HZ & HC & HK).
    exists mid. cbn zeta in *. set (zs := mkpoint horiz level t1 :: mid ++ [mkpoint horiz level t2]) in *.
    split; [exact HC|]. split; [|split].
    - intros z HI.
      pose proof (linspace_uniform (mkpoint horiz level t1) (mkpoint horiz level t2) (n - 1) ltac:(clear - n_big; lia)) as FU.
      replace (n - 1 + 1)%nat with n in FU by (clear - n_big; lia).
      destruct (F2_in _ _ _ _ FU HI) as (z' & Z1 & Z2). exists z'. split; [apply HK, Z1|exact Z2].
    - subst p. unfold asum. rewrite asum_none.
      rewrite <- (increments_none f zs) by apply len2. split; [intros [X|X]; [discriminate|exact X]|auto].
    - intros vs HV. assert (E : map f zs = map Some vs).
      { clear - HV. induction HV as [|z v zs vs H _ IH]; [reflexivity|]. cbn [map]. rewrite H, IH. reflexivity. }
      subst p. unfold asum. rewrite (increments_some f zs vs E), asum_some. reflexivity.
  Qed.

  Lemma line_undefined horiz level fuel t1 t2 st st' p z : (t1 < t2)%Q -> unseen st horiz level ->
    osum_line f delta mp n prec fuel 0 (mkpoint horiz level t1) (mkpoint horiz level t2) st = (st', SumOk [] p) ->
    In z (uniform (mkpoint horiz level t1) (mkpoint horiz level t2) (n - 1)) -> undefined f z -> p = None.
  Proof.
    intros L HF H HI HU. destruct (line_shape horiz level fuel t1 t2 st st' p L HF H) as (mid & _ & HK & HN & _).
    apply HN. destruct (HK z HI) as (z' & Z1 & Z2). apply Exists_exists. exists z'. split; [exact Z1|].
    unfold undefined. rewrite <- (f_ceq _ _ Z2). exact HU.
  Qed.

  (** Exactness where the function is defined along the segment. *)
  Lemma line_defined horiz level fuel t1 t2 st st' p (theta radius : Q -> R) (value : Q -> cR) :
    (t1 < t2)%Q -> unseen st horiz level ->
    (forall t, (t1 <= t)%Q -> (t <= t2)%Q -> takes f (mkpoint horiz level t) (value t) /\ polar (value t) (radius t) (theta t)) ->
    (forall t t', (t1 <= t)%Q -> (t < t')%Q -> (t' <= t2)%Q ->
       (t' - t <= (t2 - t1) / inject_Z (Z.of_nat (n - 1)))%Q -> (Rabs (theta t' - theta t) < PI)%R) ->
    osum_line f delta mp n prec fuel 0 (mkpoint horiz level t1) (mkpoint horiz level t2) st = (st', SumOk [] p) ->
    p = Some (theta t2 - theta t1)%R.
  Proof.
    intros L HF HP HM H.
    destruct (line_shape horiz level fuel t1 t2 st st' p L HF H) as (mid & HC & _ & _ & HV).
    cbn zeta in *.
    set (a := mkpoint horiz level t1) in *. set (b := mkpoint horiz level t2) in *.
    assert (Ca : coord_of horiz a = t1) by (destruct horiz; reflexivity).
    assert (Cb : coord_of horiz b = t2) by (destruct horiz; reflexivity).
    assert (LEN := len2 a b mid).
    assert (RNG : forall z, In z (a :: mid ++ [b]) -> (t1 <= coord_of horiz z)%Q /\ (coord_of horiz z <= t2)%Q).
    { intros z HI. split.
      - destruct HI as [<-|HI]; [rewrite Ca; Lqa.lra|].
        pose proof (chain_mono _ _ _ _ _ _ HC HI) as M. rewrite Ca in M. Lqa.lra.
      - rewrite app_comm_cons in HI. apply in_app_or in HI as [HI|[<-|[]]].
        + pose proof (chain_snoc_mono _ _ _ _ _ _ _ HC HI) as M. rewrite Cb in M. Lqa.lra.
        + rewrite Cb. Lqa.lra. }
    set (g := fun z => value (coord_of horiz z)).
    assert (VAL : forall z, In z (a :: mid ++ [b]) -> takes f z (g z) /\ polar (g z) (radius (coord_of horiz z)) (theta (coord_of horiz z))).
    { intros z HI. destruct (RNG z HI) as [R1 R2]. destruct (HP _ R1 R2) as [HP1 HP2]. split; [|exact HP2].
      unfold takes. unfold takes in HP1. rewrite (f_ceq z (mkpoint horiz level (coord_of horiz z))); [exact HP1|].
      pose proof (chain_level n n_big horiz level _ _ LEN HC z HI) as LV.
      destruct horiz; split; cbn in *; (reflexivity || exact LV). }
    rewrite (HV (map g (a :: mid ++ [b]))).
    2:{ assert (G : forall l, (forall z, In z l -> takes f z (g z)) -> Forall2 (takes f) l (map g l)).
        { induction l as [|x l IH]; intros K; [constructor|]. constructor; [apply K; left; reflexivity|].
          apply IH. intros z Hz. apply K. right. exact Hz. }
        apply G. intros z Hz. apply VAL, Hz. }
    rewrite <- increments_steps.
    rewrite (chain_exact g (fun z => theta (coord_of horiz z)) (fun z => radius (coord_of horiz z))).
    - rewrite app_comm_cons, last_last, Ca, Cb. reflexivity.
    - intros z HI. apply VAL, HI.
    - assert (G : forall l, (forall z, In z l -> (t1 <= coord_of horiz z)%Q /\ (coord_of horiz z <= t2)%Q) ->
        chain (on_line (coord_of horiz) (other_of horiz) level ((t2 - t1) / inject_Z (Z.of_nat (n - 1)))) l ->
        chain (fun z z' => (Rabs (theta (coord_of horiz z') - theta (coord_of horiz z)) < PI)%R) l).
      { induction l as [|x l IH]; intros RG C; [exact I|]. destruct l as [|y l]; [exact I|].
        destruct C as [(_ & _ & C1 & C2) C3]. split.
        - apply HM; [apply RG; left; reflexivity|Lqa.lra|apply RG; right; left; reflexivity|exact C2].
        - apply IH; [|exact C3]. intros z Hz. apply RG. right. exact Hz. }
      apply G; assumption.
  Qed.
End Line.

(** ** Functions defined everywhere *)
Section Total.
  Variables (g : cplx -> cR) (delta : R) (mp : Q) (n : nat) (prec : Z * Z).
  Notation f := (fun z => Some (g z)).
  Notation loopO := (phi_loop (Some 0%R) (ovanishes f) (ophase_step f) (oat_least delta) (orefinement delta) (nearer mp) n prec).
  Notation loopR := (phi_loop 0%R (vanishes g) (phase_step g) (at_least delta) (refinement delta) (nearer mp) n prec).
  Notation genO := (genPhiArr (Some 0%R) (ovanishes f) (ophase_step f) (oat_least delta) (orefinement delta) (nearer mp) n prec).
  Notation genR := (genPhiArr 0%R (vanishes g) (phase_step g) (at_least delta) (refinement delta) (nearer mp) n prec).
  Notation retO := (retrieveCached (Some 0%R) oadd oopp (ovanishes f) (ophase_step f) (oat_least delta) (orefinement delta) (nearer mp) n prec).
  Notation retR := (retrieveCached 0%R Rplus Ropp (vanishes g) (phase_step g) (at_least delta) (refinement delta) (nearer mp) n prec).

  Lemma shift_loop_ext fz fz' s : (forall z, fz z = fz' z) -> forall fuel zs, shift_loop fz s fuel zs = shift_loop fz' s fuel zs.
  Proof.
    intros E. induction fuel as [|fuel IH]; intros zs; [reflexivity|]. cbn [shift_loop].
    rewrite (filter_ext fz fz' E). destruct (filter fz' zs); [reflexivity|]. rewrite IH. reflexivity.
  Qed.
  Lemma vanish_same z : ovanishes f z = vanishes g z. Proof. reflexivity. Qed.
  Lemma func_same fuel a b k : genFuncArr (ovanishes f) prec fuel a b k = genFuncArr (vanishes g) prec fuel a b k.
  Proof. apply shift_loop_ext. exact vanish_same. Qed.
  Lemma increments_same zs : increments (ophase_step f) zs = map Some (increments (phase_step g) zs).
  Proof.
    induction zs as [|z zs IH]; [reflexivity|]. destruct zs as [|z' zs]; [reflexivity|].
    change (increments (ophase_step f) (z :: z' :: zs)) with (ophase_step f z z' :: increments (ophase_step f) (z' :: zs)).
    rewrite IH. reflexivity.
  Qed.
  Lemma first_index_same phis : first_index (oat_least delta) (map Some phis) = first_index (at_least delta) phis.
  Proof.
    induction phis as [|p phis IH]; [reflexivity|]. cbn [map first_index oat_least]. rewrite IH. reflexivity.
  Qed.

  Definition as_gen (r : gen R) : gen (option R) :=
    match r with Gen zs phis found => Gen zs (map Some phis) found | GenErr e => GenErr e | GenLoops => GenLoops end.

  Lemma loop_same : forall fuel idx zs phis zeros,
    loopO fuel idx zs (map Some phis) zeros = as_gen (loopR fuel idx zs phis zeros).
  Proof.
    induction fuel as [|fuel IH]; intros idx zs phis zeros; cbn [phi_loop]; rewrite first_index_same.
    { destruct (first_index (at_least delta) phis); reflexivity. }
    destruct (first_index (at_least delta) phis) as [k|]; [|reflexivity].
    destruct (nearer mp _ _); [reflexivity|]. destruct (Nat.ltb _ _); [reflexivity|].
    rewrite func_same.
    replace (orefinement delta (S idx) (nth k (map Some phis) (Some 0%R))) with (refinement delta (S idx) (nth k phis 0%R))
      by (rewrite (map_nth Some); reflexivity).
    destruct (genFuncArr _ _ _ _ _ _) as [[zRef found]|]; [|reflexivity].
    rewrite increments_same. rewrite <- IH. do 1 f_equal. rewrite !map_app, firstn_map, skipn_map. reflexivity.
  Qed.

  Lemma gen_same fuel order a b : genO fuel order a b = as_gen (genR fuel order a b).
  Proof.
    unfold genPhiArr. destruct (order =? 0); [|reflexivity]. rewrite func_same.
    destruct (genFuncArr _ _ _ _ _ _) as [[zs found]|]; [|reflexivity]. rewrite increments_same. apply loop_same.
  Qed.

  Lemma dget_map {K V W} (eqb : K -> K -> bool) (h : V -> W) k (d : list (K * V)) :
    dget eqb k (map (fun kv => (fst kv, h (snd kv))) d) = option_map h (dget eqb k d).
  Proof. induction d as [|[k' v] d IH]; [reflexivity|]. cbn [map dget fst snd]. destruct (eqb k k'); [reflexivity|exact IH]. Qed.
  Lemma dset_map {K V W} (eqb : K -> K -> bool) (h : V -> W) k v (d : list (K * V)) :
    dset eqb k (h v) (map (fun kv => (fst kv, h (snd kv))) d) = map (fun kv => (fst kv, h (snd kv))) (dset eqb k v d).
  Proof.
    induction d as [|[k' w] d IH]; [reflexivity|]. cbn [map dset fst snd]. destruct (eqb k k'); [reflexivity|]. cbn [map fst snd]. rewrite IH. reflexivity.
  Qed.

  Definition as_line (r : line_result R) : line_result (option R) :=
    match r with LineOk c zs p => LineOk (as_cache c) zs (Some p) | LineErr e => LineErr e | LineLoops => LineLoops end.

  Lemma store_same z order s1 s2 v c : storeCache z order s1 s2 (as_entry v) (as_cache c) = as_cache (storeCache z order s1 s2 v c).
  Proof.
    unfold storeCache, as_cache. rewrite dget_map. destruct (dget okey_eqb (z, order) c) as [d|]; [|reflexivity].
    cbn [option_map]. unfold as_level at 1. rewrite !dset_map. reflexivity.
  Qed.

  Lemma retrieve_same end_test coord point level fuel order t1 t2 c :
    retO end_test coord point level fuel order t1 t2 (as_cache c) = as_line (retR end_test coord point level fuel order t1 t2 c).
  Proof.
    unfold retrieveCached.
    set (s1 := if Qle_bool t1 t2 then t1 else t2). set (s2 := if Qle_bool t1 t2 then t2 else t1).
    assert (SUM : forall l, (if Qltb t1 t2 then asum (Some 0%R) oadd (map Some l) else oopp (asum (Some 0%R) oadd (map Some l))) =
      Some (if Qltb t1 t2 then asum 0%R Rplus l else Ropp (asum 0%R Rplus l))).
    { intro l. unfold asum. rewrite asum_some. destruct (Qltb t1 t2); reflexivity. }
    assert (GEN : forall c', (match genO fuel order (point s1) (point s2) with
       | GenErr e => LineErr e | GenLoops => LineLoops
       | Gen zs phis found => LineOk (storeCache level order s1 s2 (zs, phis) (as_cache c')) found
            (if Qltb t1 t2 then asum (Some 0%R) oadd phis else oopp (asum (Some 0%R) oadd phis)) end) =
      as_line (match genR fuel order (point s1) (point s2) with
       | GenErr e => LineErr e | GenLoops => LineLoops
       | Gen zs phis found => LineOk (storeCache level order s1 s2 (zs, phis) c') found
            (if Qltb t1 t2 then asum 0%R Rplus phis else Ropp (asum 0%R Rplus phis)) end)).
    { intro c'. rewrite gen_same. destruct (genR fuel order (point s1) (point s2)) as [zs phis found|e|]; cbn [as_gen as_line]; try reflexivity.
      rewrite SUM. change (zs, map Some phis) with (as_entry (zs, phis)). rewrite store_same. reflexivity. }
    replace (dget okey_eqb (level, order) (as_cache c)) with (option_map as_level (dget okey_eqb (level, order) c))
      by (unfold as_cache; rewrite dget_map; reflexivity).
    destruct (dget okey_eqb (level, order) c) as [d|]; cbn [option_map].
    2:{ replace (dset okey_eqb (level, order) [] (as_cache c)) with (as_cache (dset okey_eqb (level, order) [] c)); [apply GEN|].
        unfold as_cache. symmetry. exact (dset_map okey_eqb as_level (level, order) [] c). }
    unfold as_level. rewrite !dget_map.
    destruct (dget skey_eqb (s1, StartSide) d) as [v|]; cbn [option_map].
    - unfold as_entry at 1 2. cbn [fst snd]. destruct (Nat.ltb _ _); [apply GEN|].
      destruct (last_index _ _) as [m|]; [|reflexivity]. cbn [as_line snd fst as_entry].
      rewrite firstn_map, SUM. rewrite <- store_same. reflexivity.
    - destruct (dget skey_eqb (s2, EndSide) d) as [v|]; cbn [option_map]; [|apply GEN].
      unfold as_entry at 1 2. cbn [fst snd]. destruct (Nat.ltb _ _); [apply GEN|].
      destruct (first_index _ _) as [m|]; [|reflexivity]. cbn [as_line snd fst as_entry].
      rewrite skipn_map, SUM. rewrite <- store_same. reflexivity.
  Qed.

  Lemma line_total fuel order a b st :
    osum_line f delta mp n prec fuel order a b (as_state st) =
    (let '(st', r) := sum_line g delta mp n prec fuel order a b st in (as_state st', as_result r)).
  Proof.
    unfold osum_line, sum_line, sumLine. cbn [horizontal vertical as_state].
    destruct (Qeq_bool (im a) (im b)).
    - rewrite retrieve_same. destruct (retR _ _ _ _ _ _ _ _ _) as [c zs p|e|]; reflexivity.
    - destruct (Qeq_bool (re a) (re b)); [|reflexivity].
      rewrite retrieve_same. destruct (retR _ _ _ _ _ _ _ _ _) as [c zs p|e|]; reflexivity.
  Qed.
End Total.
