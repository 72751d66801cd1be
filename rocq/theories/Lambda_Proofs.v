(** * Lambda wrapper: proofs *)
From Verif Require Import PyBase Lambda_Model Lambda_Spec.

Section Proofs.
  Context {A : Type}.
  Implicit Types (h : list (wrap A)) (g : globals A) (w : wrap A).
  Definition slot (d : bool) g : option (callable A) := if d then g_derivative g else g_func g.

  Lemma wrapped_snoc h w g : wrapped (h ++ [w]) g = fst (do_wrap w (wrapped h g)).
  Proof. unfold wrapped. rewrite fold_left_app. reflexivity. Qed.

  Lemma slot_wrapped d h : slot d (wrapped h fresh_globals) = option_map User (newest d (rev h)).
  Proof.
    induction h as [|w h IH] using rev_ind; [destruct d; reflexivity|].
    rewrite wrapped_snoc, rev_app_distr. cbn [rev app newest].
    destruct (wrapped h fresh_globals) as [gf gd]. unfold do_wrap, wrapLambda, wrapDerivative.
    destruct w as [wd f []], wd, d; cbn [w_derivative w_save w_user Bool.eqb slot g_func g_derivative] in *;
      destruct gf, gd; cbn [fst slot g_func g_derivative]; try exact IH;
      destruct (newest _ (rev h)); cbn in *; congruence.
  Qed.

  Lemma evaluates_newest d h n z :
    call (S (S n)) (wrapped h fresh_globals) (the_wrapper d) z =
    match newest d (rev h) with Some f => f z | None => Err ValueError end.
  Proof.
    pose proof (slot_wrapped d h) as E. destruct d; cbn [slot] in E; cbn [the_wrapper call]; rewrite E;
      destruct (newest _ _); reflexivity.
  Qed.

  Lemma result_of_wrap h w g' r : do_wrap w (wrapped h fresh_globals) = (g', r) ->
    r = match newest (w_derivative w) (rev h), w_save w with
        | Some _, true => Err ValueError
        | _, _ => Ok (the_wrapper (w_derivative w))
        end
    /\ (r = Err ValueError -> g' = wrapped h fresh_globals).
  Proof.
    intro H. pose proof (slot_wrapped (w_derivative w) h) as E.
    destruct (wrapped h fresh_globals) as [gf gd]. destruct w as [[] f []]; cbn in *; unfold wrapLambda, wrapDerivative in H; cbn in H;
      destruct (newest _ _), gf, gd; cbn in *; try discriminate; injection H as <- <-; split; reflexivity || (intro; congruence).
  Qed.

  Lemma save_mode_keeps_first d h : (forall w, In w h -> w_save w = true) -> newest d (rev h) = first d h.
  Proof.
    unfold first. induction h as [|w h IH] using rev_ind; intro H; [reflexivity|].
    rewrite rev_app_distr. cbn [rev app newest]. rewrite IH by (intros w' HI; apply H, in_or_app; tauto).
    rewrite (H w) by (apply in_or_app; right; left; reflexivity). clear IH H.
    induction h as [|x h IH]; cbn [app find].
    - cbn. destruct (Bool.eqb (w_derivative w) d); reflexivity.
    - destruct (Bool.eqb (w_derivative x) d) eqn:E; [|exact IH]. cbn. destruct (Bool.eqb (w_derivative w) d); reflexivity.
  Qed.

  Lemma self_wrap g n z : forall g' r, wrapLambda WrappedFunc false g = (g', r) -> call n g' WrappedFunc z = Err RecursionError.
  Proof.
    intros g' r H. assert (E : g_func g' = Some WrappedFunc).
    { unfold wrapLambda in H. destruct (g_func g); injection H as <- _; reflexivity. }
    induction n as [|n IH]; [reflexivity|]. cbn [call]. rewrite E. exact IH.
  Qed.

  Lemma fresh_process c n z : c = WrappedFunc \/ c = WrappedDerivative -> call (S n) fresh_globals c z = Err (A:=A) ValueError.
  Proof. intros [->| ->]; reflexivity. Qed.
End Proofs.
