From Verif Require Import PyBase Json_Model Settings_Model Log_Model Log_Spec Log_Proofs LogFinder_Model LogFinder_Spec.
Open Scope list_scope.

Lemma module_name_inj a b : module_name a = module_name b -> a = b.
Proof. destruct a, b; intro H; try reflexivity; vm_compute in H; discriminate H. Qed.

Lemma has_logger_used h i : has_logger (rev h) i = true <-> used h i.
Proof.
  unfold has_logger, used. rewrite existsb_exists. split.
  - intros (e & I & H). apply in_rev in I. destruct (user e) as [[j [lv|x]]|] eqn:U; try discriminate H.
    apply Nat.eqb_eq in H. subst j. eauto.
  - intros (e & lv & I & U). exists e. split; [apply in_rev; rewrite rev_involutive; exact I|]. rewrite U. apply Nat.eqb_refl.
Qed.

Section P.
  Variables (DATE : date) (class_of : nat -> class).
  Let mo := module_of_object class_of.

  (** setLevel as an event, with its outcome. *)
  Lemma setLevel_event h st i lv s : fresh st ->
    setLevel DATE mo i lv s (after DATE mo h st) = (after DATE mo (h ++ [ESetLevel i lv s]) st,
      match s with Err e => if has_logger (rev h) i then Ok tt else Err e | Ok _ => Ok tt end).
  Proof.
    intro F. rewrite after_snoc. cbn [perform].
    pose proof (after_inv DATE mo (root st) (cwd st) h st F eq_refl eq_refl) as I.
    destruct (access_inv DATE mo (root st) (cwd st) (rev h) _ i s I) as (_ & _ & K).
    destruct (setLevel DATE mo i lv s (after DATE mo h st)) as [st1 r] eqn:E. cbn [fst]. f_equal.
    revert E K. unfold setLevel, access, has_logger. cbn [existsb user].
    destruct (existsb (Nat.eqb i) (attached (after DATE mo h st))).
    - cbn [snd is_ok]. intros [= <- <-]. destruct s as [v|e]; [reflexivity|]. cbn [orb]. intro K.
      rewrite <- K. reflexivity.
    - destruct s as [v|e].
      + destruct (initLogger DATE (mo i) v (after DATE mo h st)) as [st2 [u|x]]; cbn [snd is_ok].
        * intros [= <- <-] _. reflexivity.
        * intros [= <- <-]. rewrite Nat.eqb_refl. discriminate.
      + cbn [snd is_ok]. intros [= <- <-]. cbn [orb]. intro K. rewrite <- K. reflexivity.
  Qed.

  Variable x : finder_parts.
  Variables (lv : LogLevel) (s : res LogLevel) (h : list event) (st : logging).
  Hypothesis F : fresh st.
  Let calls := [ESetLevel (fp_finder x) lv s; ESetLevel (fp_container x) lv s; ESetLevel (fp_algorithm x) lv s].
  Let r := finder_setLevel DATE class_of x lv s (after DATE mo h st).

  Lemma has_cons e hh i : has_logger hh i = true -> has_logger (e :: hh) i = true.
  Proof. unfold has_logger. cbn [existsb]. intros ->. apply orb_true_r. Qed.
  Lemma has_self i hh lv0 : has_logger (ESetLevel i lv (Ok lv0) :: hh) i = true.
  Proof. unfold has_logger. cbn [existsb user]. rewrite Nat.eqb_refl. reflexivity. Qed.
  Lemma has_err i j e hh : has_logger (ESetLevel j lv (Err e) :: hh) i = has_logger hh i.
  Proof. reflexivity. Qed.

  Lemma r_ok : (is_ok s = true \/ forall i, named x i -> used h i) ->
    r = (after DATE mo (h ++ calls) st, Ok tt).
  Proof.
    intro K. unfold r, finder_setLevel. fold mo. rewrite (setLevel_event h st _ lv s F).
    assert (O : forall hh i, (is_ok s = true \/ used h i) -> (forall j, used h j -> has_logger (rev hh) j = true) ->
      (match s with Err e => if has_logger (rev hh) i then Ok tt else Err e | Ok _ => Ok tt end) = Ok tt).
    { intros hh i [A|A] B; destruct s as [v|e]; try reflexivity; [discriminate A|]. rewrite (B i A). reflexivity. }
    assert (K' : forall i, named x i -> is_ok s = true \/ used h i) by (intros i N; destruct K; auto).
    rewrite (O h (fp_finder x)); [|apply K'; left; reflexivity|intros j U; apply has_logger_used, U].
    rewrite (setLevel_event _ st _ lv s F).
    rewrite (O _ (fp_container x)); [|apply K'; right; left; reflexivity|].
    2:{ intros j U. rewrite rev_app_distr. apply has_cons, has_logger_used, U. }
    rewrite (setLevel_event _ st _ lv s F).
    rewrite (O _ (fp_algorithm x)); [|apply K'; right; right; reflexivity|].
    2:{ intros j U. rewrite !rev_app_distr. apply has_cons, has_cons, has_logger_used, U. }
    rewrite <- !app_assoc. reflexivity.
  Qed.

  Lemma level_after hh n : lg_level (getLogger n (after DATE mo hh st)) =
    match level_of mo (rev hh) n with Some l => level_value l | None => 0%Z end.
  Proof. exact (i_level _ _ _ _ _ _ (after_inv DATE mo (root st) (cwd st) hh st F eq_refl eq_refl) n). Qed.

  Lemma calls_rev : rev (h ++ calls) = ESetLevel (fp_algorithm x) lv s :: ESetLevel (fp_container x) lv s ::
    ESetLevel (fp_finder x) lv s :: rev h.
  Proof. rewrite rev_app_distr. reflexivity. Qed.

  Lemma level_set : (is_ok s = true \/ forall i, named x i -> used h i) ->
    snd r = Ok tt /\
    (forall i j, named x i -> class_of j = class_of i -> level_at class_of (fst r) j = level_value lv) /\
    (forall j, (forall i, named x i -> class_of j <> class_of i) ->
       level_at class_of (fst r) j = level_at class_of (after DATE mo h st) j).
  Proof.
    intro K. rewrite (r_ok K). cbn [fst snd]. split; [reflexivity|]. unfold level_at.
    assert (H : forall hh i, named x i -> (forall j, used h j -> has_logger hh j = true) ->
              has_logger (ESetLevel i lv s :: hh) i = true).
    { intros hh i N B. destruct K as [A|A].
      - destruct s as [v|e]; [apply has_self|discriminate A].
      - apply has_cons, B, A, N. }
    assert (B0 : forall j, used h j -> has_logger (rev h) j = true) by (intros j U; apply has_logger_used, U).
    pose proof (H (rev h) (fp_finder x) (or_introl eq_refl) B0) as H1.
    pose proof (H (ESetLevel (fp_finder x) lv s :: rev h) (fp_container x) (or_intror (or_introl eq_refl))
      (fun j U => has_cons _ _ _ (B0 j U))) as H2.
    pose proof (H (ESetLevel (fp_container x) lv s :: ESetLevel (fp_finder x) lv s :: rev h) (fp_algorithm x)
      (or_intror (or_intror eq_refl)) (fun j U => has_cons _ _ _ (has_cons _ _ _ (B0 j U)))) as H3.
    split.
    - intros i j N E. rewrite level_after, calls_rev, E. cbn [level_of]. rewrite H1, H2, H3, !andb_true_r.
      unfold mo, module_of_object.
      destruct N as [->|[->| ->]]; rewrite teq_refl;
        repeat match goal with |- context [if ?b then _ else _] => destruct b end; reflexivity.
    - intros j N. rewrite !level_after, calls_rev. cbn [level_of].
      assert (Q : forall i, named x i -> text_eqb (module_name (class_of j)) (mo i) = false).
      { intros i Hi. destruct (text_eqb (module_name (class_of j)) (mo i)) eqn:E; [|reflexivity].
        apply teq in E. apply module_name_inj in E. destruct (N i Hi E). }
      rewrite (Q (fp_algorithm x)) by (right; right; reflexivity).
      rewrite (Q (fp_container x)) by (right; left; reflexivity).
      rewrite (Q (fp_finder x)) by (left; reflexivity). reflexivity.
  Qed.

  (** Without settings: it fails exactly if one of the three never used its logger. *)
  Lemma level_fails e : s = Err e ->
    (snd r = Ok tt \/ snd r = Err e) /\ (snd r = Ok tt <-> forall i, named x i -> used h i).
  Proof.
    intro Es. assert (U : forall i, has_logger (rev h) i = false -> ~ used h i).
    { intros i A B. apply has_logger_used in B. congruence. }
    unfold r, finder_setLevel. fold mo. rewrite (setLevel_event h st _ lv s F). rewrite Es.
    destruct (has_logger (rev h) (fp_finder x)) eqn:E1.
    2:{ cbn [snd]. split; [right; reflexivity|]. split; [discriminate|]. intro K.
        exfalso. apply (U _ E1), K. left. reflexivity. }
    rewrite (setLevel_event _ st _ lv (Err e) F). rewrite rev_app_distr. cbn [rev app]. rewrite has_err.
    destruct (has_logger (rev h) (fp_container x)) eqn:E2.
    2:{ cbn [snd]. split; [right; reflexivity|]. split; [discriminate|]. intro K.
        exfalso. apply (U _ E2), K. right. left. reflexivity. }
    rewrite (setLevel_event _ st _ lv (Err e) F). rewrite !rev_app_distr. cbn [rev app]. rewrite !has_err.
    destruct (has_logger (rev h) (fp_algorithm x)) eqn:E3; cbn [snd].
    - split; [left; reflexivity|]. split; [|reflexivity]. intros _ i [->|[->| ->]]; apply has_logger_used; assumption.
    - split; [right; reflexivity|]. split; [discriminate|]. intro K.
      exfalso. apply (U _ E3), K. right. right. reflexivity.
  Qed.

  (** Messages of the three objects right after the call. *)
  Lemma message i lv' m s' : (is_ok s = true \/ forall i, named x i -> used h i) ->
    lv <> NOTSET -> lg_handlers (root st) = [] -> named x i ->
    let st1 := fst r in
    exists p, output (fst (log DATE mo i lv' m s' st1)) = output st1 ++
      (if Z.leb (level_value lv) (level_value lv')
       then [((p, buildFileName DATE), mkRecord (module_name (class_of i)) (level_value lv') m)] else []).
  Proof.
    intros K NN RH N st1.
    pose proof (level_set K) as (_ & L & _). specialize (L i i N eq_refl). unfold level_at in L. fold st1 in L.
    assert (E1 : st1 = after DATE mo (h ++ calls) st) by (unfold st1; rewrite (r_ok K); reflexivity).
    pose proof (after_inv DATE mo (root st) (cwd st) (h ++ calls) st F eq_refl eq_refl) as I.
    assert (HL : has_logger (rev (h ++ calls)) i = true).
    { rewrite calls_rev. destruct K as [A|A].
      - destruct s as [v|e]; [|discriminate A].
        destruct N as [->|[->| ->]]; [apply has_cons, has_cons, has_self|apply has_cons, has_self|apply has_self].
      - apply has_cons, has_cons, has_cons, has_logger_used, A, N. }
    assert (AT : existsb (Nat.eqb i) (attached st1) = true).
    { rewrite E1. rewrite (i_att _ _ _ _ _ _ I). exact HL. }
    assert (RT : root st1 = root st) by (rewrite E1; exact (i_root _ _ _ _ _ _ I)).
    unfold log, access. rewrite AT. unfold emit, effective. cbn [fst].
    change (mo i) with (module_name (class_of i)). rewrite L.
    assert (NZ : Z.eqb (level_value lv) 0 = false) by (destruct lv; try reflexivity; contradiction). rewrite NZ.
    assert (HH : lg_handlers (getLogger (module_name (class_of i)) st1) =
      match place_of mo (cwd st) (rev (h ++ calls)) (module_name (class_of i)) with
      | Some p => [(p, buildFileName DATE)] | None => [] end).
    { rewrite E1. rewrite (i_hand _ _ _ _ _ _ I (module_name (class_of i))). rewrite RH. reflexivity. }
    rewrite RT, RH, app_nil_r, HH.
    destruct (place_of mo (cwd st) (rev (h ++ calls)) (module_name (class_of i))) as [p|] eqn:P.
    - exists p. destruct (Z.leb (level_value lv) (level_value lv')); [reflexivity|]. rewrite app_nil_r. reflexivity.
    - exfalso. revert HL P. generalize (rev (h ++ calls)). clear. intros hh.
      induction hh as [|e hh IH]; [discriminate|]. cbn [place_of].
      destruct (place_of mo (cwd st) hh (module_name (class_of i))) as [p|]; [discriminate|].
      destruct (has_logger hh i) eqn:E; [intros _ _; apply IH; reflexivity|].
      unfold has_logger at 1. cbn [existsb]. fold (has_logger hh i). rewrite E, orb_false_r.
      destruct e as [j s0|j l s0|j l mm s0|n l|d]; cbn [user initializes]; try discriminate;
        destruct s0 as [v|y]; try discriminate; intro Q; apply Nat.eqb_eq in Q; subst j; rewrite E;
        change (mo i) with (module_name (class_of i)); rewrite teq_refl; cbn [andb negb]; discriminate.
  Qed.
End P.
