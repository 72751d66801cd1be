(** * Proofs about the command line program: paths *)
From Verif Require Import PyBase Json_Model Json_Proofs Settings_Model Install_Model Install_Spec Install_Proofs Main_Model Main_Spec.
Open Scope list_scope.

Lemma components_split s : components s = split_slash s.
Proof. induction s as [|c s IH]; [reflexivity|]. cbn [components fold_right split_slash]. fold (components s). rewrite IH. reflexivity. Qed.
Lemma enter_step cur c : enter cur c = step_place c cur.
Proof.
  unfold enter, step_place, skip. destruct (text_eqb c []); [reflexivity|]. cbn [orb]. destruct (text_eqb c (txt ".")); [reflexivity|].
  destruct (text_eqb c (txt "..")); [|reflexivity]. destruct cur; reflexivity.
Qed.
(** Names without slash and dots. *)
Definition name_ok (n : text) : Prop := n <> [] /\ n <> txt "." /\ n <> txt ".." /\ ~ In slash n.
Lemma enter_names comps : Forall (fun w => ~ In slash w) comps -> forall cur, Forall name_ok cur -> Forall name_ok (fold_left enter comps cur).
Proof.
  intro H. induction H as [|c comps Hc H IH]; intros cur C; [exact C|]. cbn [fold_left]. apply IH.
  unfold enter. destruct (text_eqb c []) eqn:E1; [exact C|]. destruct (text_eqb c (txt ".")) eqn:E2; [exact C|].
  destruct (text_eqb c (txt "..")) eqn:E3.
  - destruct cur; [exact C|]. inversion C; assumption.
  - constructor; [|exact C]. split; [intros ->; vm_compute in E1; discriminate|]. split; [intros ->; vm_compute in E2; discriminate|].
    split; [intros ->; vm_compute in E3; discriminate|exact Hc].
Qed.
Lemma norm_enter comps : forall new, Forall name_ok new -> Forall (fun w => ~ In slash w) comps -> norm_comps true new comps = fold_left enter comps new.
Proof.
  induction comps as [|c comps IH]; intros new N C; [reflexivity|]. cbn [norm_comps fold_left].
  pose proof (Forall_inv C) as Cc. pose proof (Forall_inv_tail C) as Ct.
  pose proof (enter_names [c] (Forall_cons _ Cc (Forall_nil _)) new N) as N1. cbn [fold_left] in N1.
  rewrite <- (IH _ N1 Ct). unfold enter. destruct (text_eqb c []); [reflexivity|]. cbn [orb]. destruct (text_eqb c (txt ".")); [reflexivity|].
  destruct (text_eqb c (txt "..")) eqn:E.
  - cbn [negb orb andb]. destruct new as [|n new]; [reflexivity|]. pose proof (Forall_inv N) as (_ & _ & Nd & _).
    destruct (text_eqb n (txt "..")) eqn:E2; [apply text_eqb_eq in E2; contradiction|]. reflexivity.
  - reflexivity.
Qed.
Lemma split_join ws : ws <> [] -> Forall (fun w => ~ In slash w) ws -> split_slash (join_slash ws) = ws.
Proof.
  induction ws as [|w ws IH]; intros NE F; [contradiction|]. inversion F as [|? ? Hw F']; subst. destruct ws as [|w' ws].
  - cbn [join_slash]. apply split_plain. exact Hw.
  - change (join_slash (w :: w' :: ws)) with (w ++ slash :: join_slash (w' :: ws)). rewrite split_app, IH by (discriminate || exact F').
    rewrite split_plain by exact Hw. reflexivity.
Qed.
Lemma walk_names fs ws : Forall name_ok ws -> forall cur, 
  (forall k, (1 <= k)%nat -> fs (skipn k (rev ws ++ cur)) = Some NDir) -> walk fs cur ws = Ok (rev ws ++ cur).
Proof.
  intro F. induction F as [|w ws Hw F IH]; intros cur D; [reflexivity|]. cbn [walk].
  assert (fs cur = Some NDir) as ->.
  { specialize (D (S (List.length ws))). cbn [rev] in D. rewrite <- app_assoc in D. cbn [app] in D.
    rewrite skipn_app, skipn_all2 in D by (rewrite rev_length; lia). rewrite rev_length in D.
    replace (S (List.length ws) - List.length ws)%nat with 1%nat in D by lia. apply D. lia. }
  destruct Hw as (W1 & W2 & W3 & _).
  destruct (text_eqb w []) eqn:E1; [apply text_eqb_eq in E1; contradiction|]. destruct (text_eqb w (txt ".")) eqn:E2; [apply text_eqb_eq in E2; contradiction|].
  destruct (text_eqb w (txt "..")) eqn:E3; [apply text_eqb_eq in E3; contradiction|]. cbn [orb].
  cbn [rev]. rewrite <- app_assoc. apply IH. intros k Hk. specialize (D k Hk). cbn [rev] in D. rewrite <- app_assoc in D. exact D.
Qed.
Lemma walk_names_only fs ws : Forall name_ok ws -> forall cur q, walk fs cur ws = Ok q -> q = rev ws ++ cur.
Proof.
  intro F. induction F as [|w ws Hw F IH]; intros cur q W; cbn [walk] in W; [injection W as <-; reflexivity|].
  destruct (fs cur) as [[ct|]|]; try discriminate. destruct Hw as (W1 & W2 & W3 & _).
  destruct (text_eqb w []) eqn:E1; [apply text_eqb_eq in E1; contradiction|]. destruct (text_eqb w (txt ".")) eqn:E2; [apply text_eqb_eq in E2; contradiction|].
  destruct (text_eqb w (txt "..")) eqn:E3; [apply text_eqb_eq in E3; contradiction|]. cbn [orb] in W.
  cbn [rev]. rewrite <- app_assoc. apply (IH _ _ W).
Qed.
Lemma tree_ancestors fs q : tree_ok fs -> fs q <> None -> forall k, (1 <= k)%nat -> fs (skipn k q) = Some NDir.
Proof.
  intros (R & D & _) H k. revert q H. induction k as [|k IH]; intros q H Hk; [lia|].
  destruct q as [|n q]; [exact R|]. cbn [skipn]. pose proof (D n q H) as Dq. destruct k as [|k]; [exact Dq|]. apply IH; [congruence|lia].
Qed.

(** ** The text of a directory *)
Lemma split_slashes (l : list text) : Forall (fun w => ~ In slash w) l -> split_slash (flat_map (fun n => slash :: n) l) = [] :: l.
Proof.
  intro F. induction F as [|w l Hw F IH]; [reflexivity|]. cbn [flat_map]. change (split_slash ((slash :: w) ++ flat_map (fun n => slash :: n) l)) with
    ([] :: split_slash (w ++ flat_map (fun n => slash :: n) l)). f_equal.
  destruct l as [|w' l]; [cbn [flat_map]; rewrite app_nil_r; apply split_plain; exact Hw|].
  cbn [flat_map app] in *. rewrite split_app, (split_plain w Hw). cbn [app]. f_equal.
  cbn [split_slash] in IH. injection IH as IH. exact IH.
Qed.
Lemma path_comps cwd : Forall plain cwd -> starts_with_slash (path_text cwd) = true /\ fold_left enter (split_slash (path_text cwd)) [] = cwd /\
  ~ In 0%N (path_text cwd) /\ (cwd <> [] -> ends_with_slash (path_text cwd) = false).
Proof.
  intro P. destruct cwd as [|n cwd].
  - split; [reflexivity|]. split; [reflexivity|]. split; [intros [C|[]]; discriminate|congruence].
  - unfold path_text. set (l := rev (n :: cwd)). assert (PL : Forall plain l) by (apply Forall_rev; exact P).
    assert (SL : Forall (fun w => ~ In slash w) l) by (eapply Forall_impl; [|exact PL]; intros w (_ & _ & _ & H & _); exact H).
    assert (NE : l <> []) by (unfold l; cbn [rev]; intro C; apply app_eq_nil in C; destruct C; discriminate).
    split; [destruct l; [contradiction|reflexivity]|]. split; [|split].
    + rewrite split_slashes by exact SL. cbn [fold_left]. change (enter [] []) with (@nil text).
      assert (G : forall ws, Forall plain ws -> forall cur, fold_left enter ws cur = rev ws ++ cur).
      { intros ws F. induction F as [|w ws Hw F IH]; intro cur; [reflexivity|]. cbn [fold_left rev]. rewrite <- app_assoc. cbn [app].
        rewrite enter_step, step_plain by exact Hw. apply IH. }
      rewrite (G l PL), app_nil_r. unfold l. apply rev_involutive.
    + intro C. apply in_flat_map in C. destruct C as (w & Hw & [C|C]); [discriminate|]. apply (proj1 (Forall_forall _ _) PL w Hw). exact C.
    + intros _. destruct (exists_last NE) as (l' & w & E). rewrite E. rewrite flat_map_app. cbn [flat_map]. rewrite app_nil_r.
      assert (Hw : plain w) by (apply (proj1 (Forall_forall _ _) PL); rewrite E; apply in_or_app; right; left; reflexivity).
      unfold ends_with_slash. rewrite rev_app_distr. cbn [rev]. destruct Hw as (W1 & _ & _ & W4 & _).
      destruct (exists_last W1) as (w' & c & Ew). rewrite Ew. rewrite rev_app_distr. cbn [rev app].
      destruct (N.eqb_spec c slash); [|reflexivity]. exfalso. apply W4. rewrite Ew. apply in_or_app. right. left. assumption.
Qed.

Definition full_path (cwd : place) (p : text) : text := if starts_with_slash p then p else join (path_text cwd) p.
Lemma full_facts cwd p : Forall plain cwd -> ~ In 0%N p ->
  starts_with_slash (full_path cwd p) = true /\ ~ In 0%N (full_path cwd p) /\
  fold_left enter (split_slash (full_path cwd p)) [] = meant_place cwd p.
Proof.
  intros C Z. unfold full_path, meant_place. destruct (starts_with_slash p) eqn:S.
  - split; [exact S|]. split; [exact Z|]. destruct p as [|c p]; [discriminate|]. cbn [starts_with_slash] in S.
    change (N.eqb c 47 = true) in S. rewrite S. reflexivity.
  - destruct (path_comps cwd C) as (S1 & F1 & Z1 & E1). unfold join. rewrite S. destruct (path_text cwd) as [|c0 t0] eqn:PT; [discriminate|]. rewrite <- PT in *.
    assert (ST : match p with [] => cwd | c :: _ => if N.eqb c 47 then [] else cwd end = cwd).
    { destruct p as [|c p]; [reflexivity|]. change (N.eqb c 47 = false) in S. rewrite S. reflexivity. }
    match goal with |- context [fold_left enter (components p) ?x] => replace x with cwd by (symmetry; exact ST) end. change (components p) with (split_slash p). destruct (ends_with_slash (path_text cwd)) eqn:E.
    + destruct cwd as [|n cwd]; [|assert (NN : n :: cwd <> []) by discriminate; pose proof (E1 NN); congruence]. cbn [path_text app].
      split; [reflexivity|]. split; [intros [X|X]; [discriminate|contradiction]|]. reflexivity.
    + split; [rewrite PT; cbn [app starts_with_slash]; rewrite PT in S1; exact S1|]. split.
      * intro X. apply in_app_or in X. destruct X as [X|[X|X]]; [contradiction|discriminate|contradiction].
      * rewrite split_app, fold_left_app, F1. reflexivity.
Qed.

Lemma enter_nul comps : Forall (fun w => ~ In 0%N w) comps -> forall cur, Forall (fun w => ~ In 0%N w) cur -> Forall (fun w => ~ In 0%N w) (fold_left enter comps cur).
Proof.
  intro H. induction H as [|c comps Hc H IH]; intros cur C; [exact C|]. cbn [fold_left]. apply IH. unfold enter.
  destruct (text_eqb c []); [exact C|]. destruct (text_eqb c (txt ".")); [exact C|]. destruct (text_eqb c (txt "..")); [|constructor; assumption].
  destruct cur; [exact C|]. inversion C; assumption.
Qed.
Lemma join_in ws c : In c (join_slash ws) -> c = slash \/ exists w, In w ws /\ In c w.
Proof.
  induction ws as [|w ws IH]; intro H; [destruct H|]. destruct ws as [|w' ws].
  - right. exists w. split; [left; reflexivity|exact H].
  - change (join_slash (w :: w' :: ws)) with (w ++ slash :: join_slash (w' :: ws)) in H. apply in_app_or in H. destruct H as [H|[H|H]].
    + right. exists w. split; [left; reflexivity|exact H].
    + left. symmetry. exact H.
    + destruct (IH H) as [H'|(x & Hx & Hc)]; [left; exact H'|]. right. exists x. split; [right; exact Hx|exact Hc].
Qed.
Lemma names_meant cwd p : Forall plain cwd -> ~ In 0%N p -> Forall plain (meant_place cwd p).
Proof.
  intros C Z. destruct (full_facts cwd p C Z) as (_ & Z' & <-).
  assert (A : Forall name_ok (fold_left enter (split_slash (full_path cwd p)) [])) by (apply enter_names; [apply split_parts|constructor]).
  assert (B : Forall (fun w => ~ In 0%N w) (fold_left enter (split_slash (full_path cwd p)) [])).
  { apply enter_nul; [|constructor]. apply Forall_forall. intros w Hw X. apply Z'. apply (split_in _ w); assumption. }
  rewrite Forall_forall in *. intros w Hw. destruct (A w Hw) as (A1 & A2 & A3 & A4). exact (conj A1 (conj A2 (conj A3 (conj A4 (B w Hw))))).
Qed.
Lemma abspath_shape cwd p : Forall plain cwd -> ~ In 0%N p -> exists pre, (pre = [slash] \/ pre = [slash; slash]) /\
  abspath cwd p = pre ++ join_slash (rev (meant_place cwd p)).
Proof.
  intros C Z. unfold abspath. fold (full_path cwd p). destruct (full_facts cwd p C Z) as (S & _ & F). unfold normpath. rewrite S.
  rewrite norm_enter, F by (constructor || apply split_parts).
  destruct (full_path cwd p) as [|c t]; [discriminate|].
  destruct (_ && _)%bool; [exists [slash; slash]|exists [slash]]; (split; [tauto|reflexivity]).
Qed.
(** The file at the place the path means. *)
Theorem abspath_lookup fs cwd cwd' p : tree_ok fs -> Forall plain cwd -> ~ In 0%N p -> fs (meant_place cwd p) <> None ->
  lookup fs cwd' (abspath cwd p) = Ok (meant_place cwd p).
Proof.
  intros T C Z H. destruct (abspath_shape cwd p C Z) as (pre & Hpre & ->). pose proof (names_meant cwd p C Z) as P.
  set (q := meant_place cwd p) in *. unfold lookup.
  assert (NZ : ~ In 0%N (pre ++ join_slash (rev q))).
  { intro X. apply in_app_or in X. destruct X as [X|X].
    - destruct Hpre as [->| ->]; cbn in X; intuition discriminate.
    - apply join_in in X. destruct X as [X|(w & Hw & X)]; [discriminate|]. apply in_rev in Hw. apply (proj1 (Forall_forall _ _) P w Hw). exact X. }
  rewrite (proj2 (nul_false _) NZ).
  assert (W : walk fs [] (split_slash (pre ++ join_slash (rev q))) = Ok q).
  { assert (W0 : walk fs [] (split_slash (join_slash (rev q))) = Ok q).
    { destruct q as [|n q0] eqn:Eq.
      - cbn. destruct T as (-> & _). reflexivity.
      - rewrite split_join.
        + rewrite <- (rev_involutive (n :: q0)) at 2. rewrite <- (app_nil_r (rev (rev (n :: q0)))). apply walk_names.
          * apply Forall_rev. eapply Forall_impl; [|exact P]. intros w (A & B & D & E & _). exact (conj A (conj B (conj D E))).
          * rewrite app_nil_r, rev_involutive. apply tree_ancestors; assumption.
        + cbn [rev]. intro X. apply app_eq_nil in X. destruct X. discriminate.
        + apply Forall_rev. eapply Forall_impl; [|exact P]. intros w (_ & _ & _ & E & _). exact E. }
    destruct T as (R & _). destruct Hpre as [->| ->]; cbn [app split_slash]; rewrite N.eqb_refl; cbn [walk]; rewrite ?R; exact W0. }
  destruct (pre ++ join_slash (rev q)) as [|c t] eqn:E; [destruct Hpre as [->| ->]; discriminate|].
  assert (starts_with_slash (c :: t) = true) as ->.
  { destruct Hpre as [->| ->]; injection E as <- _; reflexivity. }
  exact W.
Qed.
Theorem abspath_exists fs cwd cwd' p : tree_ok fs -> Forall plain cwd -> ~ In 0%N p -> fs (meant_place cwd p) = None ->
  exists_ fs cwd' (abspath cwd p) = false.
Proof.
  intros T C Z H. destruct (abspath_shape cwd p C Z) as (pre & Hpre & ->). pose proof (names_meant cwd p C Z) as P.
  set (q := meant_place cwd p) in *. unfold exists_, lookup. destruct (existsb _ _); [reflexivity|].
  assert (ST : starts_with_slash (pre ++ join_slash (rev q)) = true) by (destruct Hpre as [->| ->]; reflexivity). rewrite ST.
  assert (W : forall q', walk fs [] (split_slash (pre ++ join_slash (rev q))) = Ok q' -> q' = q).
  { intros q' W. assert (W0 : walk fs [] (split_slash (join_slash (rev q))) = Ok q').
    { destruct T as (R & _). destruct Hpre as [->| ->]; cbn [app split_slash] in W; rewrite N.eqb_refl in W; cbn [walk] in W; rewrite ?R in W; exact W. }
    destruct q as [|n q0] eqn:Eq.
    - cbn in W0. destruct T as (R & _). rewrite R in W0. injection W0 as <-. reflexivity.
    - rewrite split_join in W0.
      + apply walk_names_only in W0; [rewrite app_nil_r, rev_involutive in W0; exact W0|].
        apply Forall_rev. eapply Forall_impl; [|exact P]. intros w (A & B & D & E & _). exact (conj A (conj B (conj D E))).
      + cbn [rev]. intro X. apply app_eq_nil in X. destruct X. discriminate.
      + apply Forall_rev. eapply Forall_impl; [|exact P]. intros w (_ & _ & _ & E & _). exact E. }
  destruct (pre ++ join_slash (rev q)) as [|c t]; [reflexivity|].
  destruct (walk fs [] (split_slash (c :: t))) as [q'|e]; [|reflexivity]. rewrite (W q' eq_refl), H. reflexivity.
Qed.
Lemma abspath_basename cwd p n d : Forall plain cwd -> ~ In 0%N p -> meant_place cwd p = n :: d -> basename (abspath cwd p) = n.
Proof.
  intros C Z E. destruct (abspath_shape cwd p C Z) as (pre & Hpre & ->). pose proof (names_meant cwd p C Z) as P. rewrite E in *.
  unfold basename. assert (S : split_slash (join_slash (rev (n :: d))) = rev (n :: d)).
  { apply split_join; [cbn [rev]; intro X; apply app_eq_nil in X; destruct X; discriminate|].
    apply Forall_rev. eapply Forall_impl; [|exact P]. intros w (_ & _ & _ & X & _). exact X. }
  assert (NE : rev (n :: d) <> []) by (cbn [rev]; intro X; apply app_eq_nil in X; destruct X; discriminate).
  assert (L : last (rev (n :: d)) [] = n) by (cbn [rev]; apply last_last).
  destruct Hpre as [->| ->]; cbn [app split_slash]; rewrite N.eqb_refl, ?S; destruct (rev (n :: d)); try contradiction; exact L.
Qed.
(** A path the system resolves means the place it resolves to. *)
Lemma walk_meant fs comps : forall cur q, walk fs cur comps = Ok q -> q = fold_left enter comps cur.
Proof.
  induction comps as [|c comps IH]; intros cur q W; cbn [walk] in W; [injection W as <-; reflexivity|]. cbn [fold_left].
  destruct (fs cur) as [[ct|]|]; try discriminate. rewrite enter_step. unfold step_place, skip.
  destruct (_ || _)%bool; [apply IH, W|]. destruct (text_eqb c (txt "..")); apply IH, W.
Qed.
Lemma lookup_meant fs cwd p q : lookup fs cwd p = Ok q -> q = meant_place cwd p /\ ~ In 0%N p.
Proof.
  unfold lookup, meant_place. destruct (existsb (N.eqb 0%N) p) eqn:Z; [discriminate|]. apply nul_false in Z. destruct p as [|c p]; [discriminate|].
  intro W. apply walk_meant in W. rewrite components_split. cbn [starts_with_slash] in W. change 47%N with slash. auto.
Qed.
