(** * Proofs about logging (C62) *)
From Coq Require Import NArith Nnat.
From Verif Require Import PyBase Json_Model Json_Proofs Json_Proofs2 Settings_Model Log_Model Log_Spec.
Open Scope list_scope.

(** ** File names *)
Lemma app_split {A} (a b c d : list A) : a ++ b = c ++ d -> List.length a = List.length c -> a = c /\ b = d.
Proof.
  revert c. induction a as [|x a IH]; intros [|y c] E L; try discriminate L; [split; [reflexivity|exact E]|].
  cbn [app] in E. injection E as -> E. injection L as L. destruct (IH c E L) as [-> ->]. split; reflexivity.
Qed.

Definition two_ok (n : N) : bool := Nat.eqb (List.length (zfill2 (digits n))) 2 && N.eqb (nat_value (zfill2 (digits n))) n.
Lemma two_all : forallb (fun k => two_ok (N.of_nat k)) (seq 0 100) = true.
Proof. vm_compute. reflexivity. Qed.
Lemma two n : (n < 100)%N -> List.length (zfill2 (digits n)) = 2%nat /\ nat_value (zfill2 (digits n)) = n.
Proof.
  intro H. pose proof two_all as A. rewrite forallb_forall in A.
  assert (I : In (N.to_nat n) (seq 0 100)) by (apply in_seq; lia).
  specialize (A _ I). rewrite N2Nat.id in A. unfold two_ok in A. apply andb_prop in A. destruct A as [A B].
  apply Nat.eqb_eq in A. apply N.eqb_eq in B. split; assumption.
Qed.
Lemma two_inj m n : (m < 100)%N -> (n < 100)%N -> zfill2 (digits m) = zfill2 (digits n) -> m = n.
Proof. intros M Hn E. rewrite <- (proj2 (two m M)), E. exact (proj2 (two n Hn)). Qed.
Lemma digits_value n : nat_value (digits n) = n.
Proof. apply digits_ok. Qed.
Lemma name_injective a b : valid_date a -> valid_date b -> buildFileName a = buildFileName b -> a = b.
Proof.
  intros (A1 & A2 & A3 & A4 & A5 & A6) (B1 & B2 & B3 & B4 & B5 & B6) E. unfold buildFileName in E.
  apply app_inv_head in E. apply app_inv_tail in E.
  apply app_split in E; [|etransitivity; [apply two; lia|symmetry; apply two; lia]]. destruct E as [Ed E].
  apply app_split in E; [|etransitivity; [apply two; lia|symmetry; apply two; lia]]. destruct E as [Em E].
  apply app_split in E.
  2: { apply (f_equal (@List.length N)) in E. rewrite !app_length in E.
       rewrite (proj1 (two (hour a) ltac:(lia))), (proj1 (two (hour b) ltac:(lia))), (proj1 (two (minute a) ltac:(lia))),
         (proj1 (two (minute b) ltac:(lia))), (proj1 (two (second a) ltac:(lia))), (proj1 (two (second b) ltac:(lia))) in E. lia. }
  destruct E as [Ey E].
  apply app_split in E; [|etransitivity; [apply two; lia|symmetry; apply two; lia]]. destruct E as [Eh E].
  apply app_split in E; [|etransitivity; [apply two; lia|symmetry; apply two; lia]]. destruct E as [Ei Es].
  apply two_inj in Ed; [|lia|lia]. apply two_inj in Em; [|lia|lia]. apply two_inj in Eh; [|lia|lia].
  apply two_inj in Ei; [|lia|lia]. apply two_inj in Es; [|lia|lia].
  apply (f_equal nat_value) in Ey. rewrite !digits_value in Ey.
  destruct a, b; cbn in *. congruence.
Qed.

(** ** Histories *)
Lemma after_snoc DATE mo h e st : after DATE mo (h ++ [e]) st = fst (perform DATE mo e (after DATE mo h st)).
Proof. unfold after. rewrite fold_left_app. reflexivity. Qed.

Lemma teq a b : text_eqb a b = true <-> a = b.
Proof. apply text_eqb_eq. Qed.
Lemma teq_refl a : text_eqb a a = true.
Proof. apply teq. reflexivity. Qed.
Lemma get_putLogger n n' l st : getLogger n (putLogger n' l st) = if text_eqb n n' then l else getLogger n st.
Proof.
  unfold getLogger, putLogger. cbn [loggers]. destruct (text_eqb n n') eqn:E.
  - apply teq in E. subst n'. rewrite (dget_dset_same text_eqb text_eqb_eq). reflexivity.
  - rewrite (dget_dset_other text_eqb text_eqb_eq); [reflexivity|]. intros ->. rewrite teq_refl in E. discriminate E.
Qed.

(** What holds in every state reached from a fresh one. *)
Record inv (DATE : date) (mo : nat -> text) (rt : logger) (d : nat) (h : list event) (st : logging) : Prop := mkInv {
  i_cwd : cwd st = cwd_of d h;
  i_root : root st = rt;
  i_dirs : forall p, dirs st p <> NotDirectory;
  i_att : forall i, existsb (Nat.eqb i) (attached st) = has_logger h i;
  i_level : forall n, lg_level (getLogger n st) = match level_of mo h n with Some lv => level_value lv | None => 0%Z end;
  i_hand : forall n, lg_handlers (getLogger n st) = match lg_handlers rt with
                       | [] => match place_of mo d h n with Some p => [(p, buildFileName DATE)] | None => [] end
                       | _ => [] end }.
Lemma initLogger_ok DATE n lv st : (forall p, dirs st p <> NotDirectory) ->
  exists st', initLogger DATE n lv st = (st', Ok tt) /\ cwd st' = cwd st /\ root st' = root st /\ (forall p, dirs st' p <> NotDirectory) /\
    attached st' = attached st /\ output st' = output st /\
    forall m, getLogger m st' = if text_eqb m n
      then mkLogger (level_value lv) (match lg_handlers (getLogger n st) ++ lg_handlers (root st) with
                                      | [] => [(cwd st, buildFileName DATE)] | _ => lg_handlers (getLogger n st) end)
      else getLogger m st.
Proof.
  intro D. unfold initLogger, makeLogDir. destruct (dirs st (cwd st)) eqn:E.
  - eexists. split; [reflexivity|]. unfold putLogger, putDir. cbn [cwd dirs root attached output].
    split; [reflexivity|]. split; [reflexivity|]. split.
    { intros p. destruct (Nat.eqb (cwd st) p); [discriminate|apply D]. }
    split; [reflexivity|]. split; [reflexivity|]. intro m.
    exact (get_putLogger m n _ (putDir (cwd st) Directory st)).
  - eexists. split; [reflexivity|]. unfold putLogger. cbn [cwd dirs root attached output].
    split; [reflexivity|]. split; [reflexivity|]. split; [exact D|]. split; [reflexivity|]. split; [reflexivity|]. intro m.
    exact (get_putLogger m n _ st).
  - destruct (D _ E).
Qed.

Section History.
  Variable DATE : date.
  Variable mo : nat -> text.
  Variable rt : logger.
  Variable d : nat.
  Notation inv := (inv DATE mo rt d).

  Lemma inv_fresh st : fresh st -> root st = rt -> cwd st = d -> inv [] st.
  Proof.
    intros (L & A & O & D) R C. constructor.
    - exact C.
    - exact R.
    - exact D.
    - intro i. rewrite A. reflexivity.
    - intro n. unfold getLogger. rewrite L. reflexivity.
    - intro n. unfold getLogger. rewrite L. cbn. destruct (lg_handlers rt); reflexivity.
  Qed.

  (** initLogger for n at the level lv, seen as an event [e] that initializes exactly n. *)
  Lemma init_inv h st e n lv : inv h st ->
    (forall m, initializes mo h e m = if text_eqb m n then Some lv else None) ->
    (forall m, level_of mo (e :: h) m = match initializes mo h e m with Some x => Some x | None => level_of mo h m end) ->
    cwd_of d (e :: h) = cwd_of d h ->
    forall st', cwd st' = cwd st -> root st' = root st -> (forall p, dirs st' p <> NotDirectory) ->
    (forall i, existsb (Nat.eqb i) (attached st') = has_logger (e :: h) i) ->
    (forall m, getLogger m st' = if text_eqb m n
      then mkLogger (level_value lv) (match lg_handlers (getLogger n st) ++ lg_handlers (root st) with
                                      | [] => [(cwd st, buildFileName DATE)] | _ => lg_handlers (getLogger n st) end)
      else getLogger m st) -> inv (e :: h) st'.
  Proof.
    intros I HI HL HC st' C R D A G. destruct I as [Ic Ir Id Ia Il Ih]. constructor.
    - rewrite C, HC. exact Ic.
    - rewrite R. exact Ir.
    - exact D.
    - exact A.
    - intro m. rewrite G, HL, HI. destruct (text_eqb m n); [reflexivity|apply Il].
    - intro m. rewrite G. cbn [place_of]. rewrite HI. destruct (text_eqb m n) eqn:E.
      + cbn [lg_handlers]. apply teq in E. subst m. rewrite Ih, Ir.
        destruct (lg_handlers rt); [|reflexivity]. destruct (place_of mo d h n); [reflexivity|].
        cbn [app]. rewrite Ic. reflexivity.
      + rewrite Ih. destruct (lg_handlers rt); [|reflexivity]. destruct (place_of mo d h m); reflexivity.
  Qed.

  Lemma same_inv h st e : inv h st -> (forall m, initializes mo h e m = None) ->
    (forall m, level_of mo (e :: h) m = match initializes mo h e m with Some x => Some x | None => level_of mo h m end) ->
    cwd_of d (e :: h) = cwd_of d h -> (forall i, has_logger (e :: h) i = has_logger h i) -> inv (e :: h) st.
  Proof.
    intros I HI HL HC HA. destruct I as [Ic Ir Id Ia Il Ih]. constructor.
    - rewrite HC. exact Ic.
    - exact Ir.
    - exact Id.
    - intro i. rewrite HA. apply Ia.
    - intro m. rewrite HL, HI. apply Il.
    - intro m. rewrite Ih. cbn [place_of]. rewrite HI. destruct (lg_handlers rt); [|reflexivity]. destruct (place_of mo d h m); reflexivity.
  Qed.

  Lemma access_inv h st i s : inv h st ->
    inv (EAccess i s :: h) (fst (access DATE mo i s st)) /\ output (fst (access DATE mo i s st)) = output st /\
    is_ok (snd (access DATE mo i s st)) = has_logger (EAccess i s :: h) i.
  Proof.
    intro I. pose proof (i_att _ _ _ _ _ _ I) as A. unfold access. rewrite A.
    destruct (has_logger h i) eqn:E.
    - cbn [fst snd]. split; [|split; [reflexivity|]].
      + apply same_inv; [exact I| | | |].
        * intro m. cbn [initializes]. destruct s; [|reflexivity]. rewrite E, andb_false_r. reflexivity.
        * reflexivity.
        * reflexivity.
        * intro j. unfold has_logger at 1. cbn [existsb user]. fold (has_logger h j).
          destruct s; [|reflexivity]. destruct (Nat.eqb j i) eqn:J; [|reflexivity]. apply Nat.eqb_eq in J. subst j. rewrite E. reflexivity.
      + unfold has_logger. cbn [existsb]. fold (has_logger h i). rewrite E, orb_true_r. reflexivity.
    - destruct s as [lv|e].
      + destruct (initLogger_ok DATE (mo i) lv st (i_dirs _ _ _ _ _ _ I)) as (st' & Ei & C & R & D & At & O & G).
        rewrite Ei. cbn [fst snd output]. split; [|split; [exact O|]].
        * refine (init_inv h st (EAccess i (Ok lv)) (mo i) lv I _ _ eq_refl (mkLogging (cwd st') (dirs st') (loggers st') (root st') (i :: attached st') (output st')) C R D _ G).
          -- intro m. cbn [initializes]. rewrite E. destruct (text_eqb m (mo i)); reflexivity.
          -- reflexivity.
          -- intro j. cbn [attached existsb]. rewrite At, A. reflexivity.
        * unfold has_logger. cbn [existsb user]. rewrite Nat.eqb_refl. reflexivity.
      + cbn [fst snd]. split; [|split; [reflexivity|]].
        * apply same_inv; [exact I|reflexivity|reflexivity|reflexivity|reflexivity].
        * unfold has_logger. cbn [existsb user]. fold (has_logger h i). rewrite E. reflexivity.
  Qed.

  Lemma inv_equiv h h' st : inv h st -> cwd_of d h' = cwd_of d h -> (forall i, has_logger h' i = has_logger h i) ->
    (forall n, level_of mo h' n = level_of mo h n) -> (forall n, place_of mo d h' n = place_of mo d h n) -> inv h' st.
  Proof.
    intros [Ic Ir Id Ia Il Ih] C A L P. constructor; [congruence|exact Ir|exact Id|intro i; now rewrite A|intro n; now rewrite L|intro n; now rewrite P].
  Qed.

  Lemma emit_frame n v m st : cwd (emit n v m st) = cwd st /\ root (emit n v m st) = root st /\ dirs (emit n v m st) = dirs st /\
    attached (emit n v m st) = attached st /\ loggers (emit n v m st) = loggers st.
  Proof. unfold emit. destruct (Z.leb _ _); repeat split. Qed.

  Lemma step_inv h st e : inv h st -> inv (e :: h) (fst (perform DATE mo e st)).
  Proof.
    intro I. destruct e as [i s|i lv s|i lv m s|n lv|p]; cbn [perform].
    - apply (access_inv h st i s I).
    - pose proof (access_inv h st i s I) as (J & _ & K). unfold setLevel. destruct (access DATE mo i s st) as [st1 [u|e]]; cbn [fst snd is_ok] in *.
      + destruct J as [Ic Ir Id Ia Il Ih]. constructor; cbn [setLoggerLevel putLogger cwd root dirs attached].
        * exact Ic.
        * exact Ir.
        * exact Id.
        * exact Ia.
        * intro n. unfold setLoggerLevel. rewrite get_putLogger. cbn [level_of].
          change (has_logger (ESetLevel i lv s :: h) i) with (has_logger (EAccess i s :: h) i). rewrite <- K, andb_true_r.
          destruct (text_eqb n (mo i)) eqn:T; [reflexivity|]. rewrite Il. cbn [level_of initializes]. rewrite T. destruct s; reflexivity.
        * intro n. unfold setLoggerLevel. rewrite get_putLogger. destruct (text_eqb n (mo i)) eqn:T.
          -- cbn [lg_handlers]. apply teq in T. subst n. exact (Ih (mo i)).
          -- exact (Ih n).
      + apply (inv_equiv _ (ESetLevel i lv s :: h) _ J); try reflexivity.
        intro n. cbn [level_of]. change (has_logger (ESetLevel i lv s :: h) i) with (has_logger (EAccess i s :: h) i). rewrite <- K, andb_false_r.
        cbn [initializes]. destruct s as [l|e']; [|reflexivity]. unfold has_logger in K. cbn [existsb user] in K. rewrite Nat.eqb_refl in K. discriminate K.
    - pose proof (access_inv h st i s I) as (J & _ & K). unfold log. destruct (access DATE mo i s st) as [st1 [u|e]]; cbn [fst snd is_ok] in *.
      + destruct (emit_frame (mo i) (level_value lv) m st1) as (F1 & F2 & F3 & F4 & F5).
        destruct J as [Ic Ir Id Ia Il Ih]. constructor.
        * rewrite F1. exact Ic.
        * rewrite F2. exact Ir.
        * intro p. rewrite F3. apply Id.
        * intro j. rewrite F4. apply Ia.
        * intro n. unfold getLogger. rewrite F5. apply Il.
        * intro n. unfold getLogger. rewrite F5. apply Ih.
      + apply (inv_equiv _ (ELog i lv m s :: h) _ J); reflexivity.
    - destruct (initLogger_ok DATE n lv st (i_dirs _ _ _ _ _ _ I)) as (st' & Ei & C & R & D & At & O & G). rewrite Ei. cbn [fst].
      refine (init_inv h st (EInit n lv) n lv I _ _ eq_refl _ C R D _ G).
      + reflexivity.
      + reflexivity.
      + intro j. rewrite At. apply (i_att _ _ _ _ _ _ I).
    - destruct I as [Ic Ir Id Ia Il Ih]. constructor; cbn [chdir fst cwd root dirs attached].
      + reflexivity.
      + exact Ir.
      + exact Id.
      + exact Ia.
      + exact Il.
      + intro n. cbn [place_of initializes]. 
        change (getLogger n (chdir p st)) with (getLogger n st). rewrite Ih. destruct (lg_handlers rt); [|reflexivity].
        destruct (place_of mo d h n); reflexivity.
  Qed.

  Lemma after_inv h st : fresh st -> root st = rt -> cwd st = d -> inv (rev h) (after DATE mo h st).
  Proof.
    intros F R C. induction h as [|e h IH] using rev_ind; [apply inv_fresh; assumption|].
    rewrite rev_app_distr, after_snoc. cbn [rev app]. apply step_inv. exact IH.
  Qed.

  Lemma outputs h st : fresh st -> root st = rt -> cwd st = d -> lg_handlers rt = [] ->
    output (after DATE mo h st) = written DATE mo (lg_level rt) d (rev h).
  Proof.
    intros F R C H. induction h as [|e h IH] using rev_ind; [apply F|].
    rewrite rev_app_distr, after_snoc. cbn [rev app]. pose proof (after_inv h st F R C) as I.
    set (st1 := after DATE mo h st) in *. set (h1 := rev h) in *. cbn [written]. rewrite <- IH. clear IH F R C.
    destruct e as [i s|i lv s|i lv m s|n lv|p]; cbn [perform]; rewrite ?app_nil_r.
    - apply (access_inv h1 st1 i s I).
    - pose proof (access_inv h1 st1 i s I) as (_ & O & _). unfold setLevel. destruct (access DATE mo i s st1) as [st2 [u|e]]; exact O.
    - pose proof (access_inv h1 st1 i s I) as (J & O & K). unfold log. destruct (access DATE mo i s st1) as [st2 [u|e]]; cbn [fst snd is_ok] in *.
      + change (has_logger (ELog i lv m s :: h1) i) with (has_logger (EAccess i s :: h1) i). rewrite <- K. cbn [andb].
        change (place_of mo d (ELog i lv m s :: h1) (mo i)) with (place_of mo d (EAccess i s :: h1) (mo i)).
        change (threshold mo (lg_level rt) (ELog i lv m s :: h1) (mo i)) with (threshold mo (lg_level rt) (EAccess i s :: h1) (mo i)).
        unfold emit. assert (Ef : effective (mo i) st2 = threshold mo (lg_level rt) (EAccess i s :: h1) (mo i)).
        { unfold effective, threshold. rewrite (i_level _ _ _ _ _ _ J), (i_root _ _ _ _ _ _ J).
          destruct (level_of mo (EAccess i s :: h1) (mo i)) as [[]|]; reflexivity. }
        rewrite Ef. destruct (Z.leb _ _); cbn [output]; [|rewrite app_nil_r; exact O].
        rewrite O, (i_hand _ _ _ _ _ _ J), (i_root _ _ _ _ _ _ J), H, app_nil_r.
        destruct (place_of mo d (EAccess i s :: h1) (mo i)); reflexivity.
      + change (has_logger (ELog i lv m s :: h1) i) with (has_logger (EAccess i s :: h1) i). rewrite <- K. cbn [andb]. rewrite app_nil_r. exact O.
    - destruct (initLogger_ok DATE n lv st1 (i_dirs _ _ _ _ _ _ I)) as (st' & Ei & _ & _ & _ & _ & O & _). rewrite Ei. exact O.
    - reflexivity.
  Qed.
End History.

(** A logger that has been initialized has a place. *)
Lemma place_after_init mo d h1 h2 e n lv : initializes mo h1 e n = Some lv -> place_of mo d (h2 ++ e :: h1) n <> None.
Proof.
  intro E. induction h2 as [|e' h2 IH]; cbn [List.app place_of].
  - destruct (place_of mo d h1 n); [discriminate|]. rewrite E. discriminate.
  - destruct (place_of mo d (h2 ++ e :: h1) n) eqn:Q; [discriminate|]. destruct (IH eq_refl).
Qed.

(** Without any chdir everything is in the directory of the start. *)
Lemma no_chdir mo d h : (forall p, ~ In (EChdir p) h) -> cwd_of d h = d /\ forall n p, place_of mo d h n = Some p -> p = d.
Proof.
  induction h as [|e h IH]; intro N; [split; [reflexivity|discriminate]|].
  destruct IH as [C P]. { intros p I. apply (N p). right. exact I. }
  split.
  - cbn [cwd_of]. destruct e; try exact C. exfalso. apply (N d0). left. reflexivity.
  - intros n p. cbn [place_of]. destruct (place_of mo d h n) eqn:E; [intro Q; injection Q as <-; exact (P n _ E)|].
    destruct (initializes mo h e n); [|discriminate]. intro Q. injection Q as <-. exact C.
Qed.

(** ** Concurrent starts *)
Lemma mkdir_ready sched : snd (mrun sched Directory) = Directory /\ forall p, fst (mrun sched Directory) p <> MFailed /\ fst (mrun sched Directory) p <> MAbsent.
Proof.
  unfold mrun. induction sched as [|p s IH] using rev_ind; [split; [reflexivity|]; intro p; split; discriminate|].
  rewrite fold_left_app. cbn [fold_left]. destruct IH as [E F]. destruct (fold_left mtick s _) as [pcs e]. cbn [fst snd] in *. subst e.
  unfold mtick. cbn [fst snd]. destruct (F p) as [F1 F2]. destruct (pcs p) eqn:Ep; cbn [mkdir_step fst snd]; (split; [reflexivity|]);
    intro q; cbn [fst snd]; destruct (Nat.eqb p q); first [split; discriminate|exact (F q)|exfalso; congruence|idtac].
Qed.
(** From a missing directory: once it exists somebody is ready. *)
Lemma mkdir_missing sched : let st := mrun sched Missing in
  snd st = Missing /\ (forall p, fst st p = MStart \/ fst st p = MAbsent) \/ snd st = Directory /\ exists p, fst st p = MReady.
Proof.
  unfold mrun. induction sched as [|p s IH] using rev_ind.
  { cbn. left. split; [reflexivity|]. left. reflexivity. }
  rewrite fold_left_app. cbn [fold_left]. cbn zeta in *. destruct (fold_left mtick s _) as [pcs e]. cbn [fst snd] in *.
  unfold mtick. cbn [fst snd]. destruct IH as [[A A']|[A [r B]]]; subst e.
  - destruct (A' p) as [E|E]; rewrite E; cbn [mkdir_step fst snd].
    + left. split; [reflexivity|]. intro q. destruct (Nat.eqb p q); [right; reflexivity|apply A'].
    + right. split; [reflexivity|]. exists p. rewrite Nat.eqb_refl. reflexivity.
  - right. assert (S : forall pc e, mkdir_step (pcs p) Directory = (pc, e) -> e = Directory /\ (pcs p = MReady -> pc = MReady)).
    { intros pc e. destruct (pcs p); cbn [mkdir_step]; intro Q; injection Q as <- <-; split; try reflexivity; try discriminate. }
    destruct (mkdir_step (pcs p) Directory) as [pc e]. destruct (S pc e eq_refl) as [-> K]. cbn [fst snd]. split; [reflexivity|].
    exists r. destruct (Nat.eqb p r) eqn:Q; [|exact B]. apply Nat.eqb_eq in Q. subst r. exact (K B).
Qed.

Definition race : list nat := [0; 1; 0; 1]%nat.
Lemma mkdir_race : fst (mrun race Missing) 0%nat = MReady /\ fst (mrun race Missing) 1%nat = MFailed.
Proof. vm_compute. split; reflexivity. Qed.

(** A level set explicitly is lost when another object of the module logs for the first time. *)
Lemma reset DATE mo h i j lv s lv' st : fresh st -> mo i = mo j -> (forall e, In e h -> match user e with Some (k, _) => k <> j | None => True end) -> i <> j ->
  lg_level (getLogger (mo i) (after DATE mo (h ++ [ESetLevel i lv s; EAccess j (Ok lv')]) st)) = level_value lv'.
Proof.
  intros F M H N. rewrite (i_level _ _ _ _ _ _ (after_inv DATE mo (root st) (cwd st) _ st F eq_refl eq_refl)).
  rewrite rev_app_distr. cbn [rev List.app level_of initializes]. rewrite M, teq_refl.
  assert (E : has_logger (ESetLevel i lv s :: rev h) j = false).
  { unfold has_logger. cbn [existsb user]. apply orb_false_iff. split.
    - destruct s; [|reflexivity]. apply Nat.eqb_neq. congruence.
    - destruct (existsb _ (rev h)) eqn:X; [|reflexivity]. apply existsb_exists in X. destruct X as (e & I & K). apply in_rev in I. specialize (H e I).
      destruct (user e) as [[k [l|x]]|]; try discriminate K. apply Nat.eqb_eq in K. congruence. }
  rewrite E. reflexivity.
Qed.
