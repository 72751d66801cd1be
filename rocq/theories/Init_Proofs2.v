(** * Proofs about the initialization (C61), continued: histories and plugins *)
From Verif Require Import PyBase Json_Model Settings_Model Cli_Model Cli_Spec Locator_Model Locator_Spec Loader_Model Loader_Spec Loader_Proofs
  Install_Model Install_Spec Install_Proofs Log_Model Log_Spec Init_Model Init_Spec Init_Proofs.
Open Scope list_scope.

Lemma registerAsTransient_sealed {T V W} teqb t f (l : locator T V W) : sealed (fst (registerAsTransient teqb t f l)) = sealed l.
Proof. unfold registerAsTransient. destruct (sealed l) eqn:S; [exact S|reflexivity]. Qed.
Lemma register_plugins_sealed {T V W} teqb (ps : list (@plugin T V W)) : forall l, sealed (fst (register_plugins teqb ps l)) = sealed l.
Proof.
  induction ps as [|p ps IH]; intro l; [reflexivity|]. cbn [register_plugins].
  destruct (getInstance p); [|reflexivity]. destruct (initialize p) as [f|]; [|reflexivity].
  pose proof (registerAsTransient_sealed teqb (i_type a) f l) as S. destruct (registerAsTransient teqb (i_type a) f l) as [l' [u|e]]; [|exact S].
  specialize (IH l'). destruct (register_plugins teqb ps l') as [l'' r]. cbn [fst] in *. congruence.
Qed.
Lemma loadPlugins_sealed {T V W} teqb fm low r listing (l : locator T V W) : sealed (fst (loadPlugins teqb fm low r listing l)) = sealed l.
Proof. unfold loadPlugins. destruct (locateAndLoadPlugins fm low r listing); [apply register_plugins_sealed|reflexivity]. Qed.
Lemma register_sealed ts : forall l, sealed (fst (register ts l)) = sealed l.
Proof.
  unfold register. intro l0. assert (G : forall r : locator stype obj files * res unit, sealed (fst (fold_left (fun acc tf => match acc with
               | (l, Ok _) => registerAsTransient stype_eqb (fst tf) (snd tf) l
               | (l, Err e) => (l, Err e) end) ts r)) = sealed (fst r)).
  { induction ts as [|tf ts IH]; intros [l r]; [reflexivity|]. cbn [fold_left]. rewrite IH. destruct r; [apply registerAsTransient_sealed|reflexivity]. }
  exact (G (l0, Ok tt)).
Qed.

Definition same (st st' : pyzeal) : Prop := initialized st' = initialized st /\ sealed (loc st') = sealed (loc st).
Lemma same_trans a b c : same a b -> same b c -> same a c.
Proof. intros [A B] [C D]. split; congruence. Qed.
Lemma then_same st (r : pyzeal * res unit) k : same st (fst r) -> (forall s, same st s -> same st (fst (k s))) -> same st (fst (then_ r k)).
Proof. intros A B. destruct r as [s [u|e]]; cbn [then_ fst] in *; [apply B; exact A|exact A]. Qed.
Lemma on_loc_same st f : (forall l, sealed (fst (f l)) = sealed l) -> same st (fst (on_loc f st)).
Proof. intro H. unfold on_loc. specialize (H (loc st)). destruct (f (loc st)) as [l r]. split; [reflexivity|exact H]. Qed.

Section Init.
  Variable user_instance : nat -> stype -> bool.
  Variables algorithm_factory container_factory estimator_factory : factory stype obj files.
  Variable find_module : text -> res (@module stype obj files).
  Variable low : N -> text.
  Variable DATE : date.
  Notation init := (initPyZEALServices user_instance algorithm_factory container_factory estimator_factory find_module low DATE).

  Lemma init_flag depth mode w listing st st' r : init depth mode w listing st = (st', r) ->
    initialized st' = (initialized st || is_ok r)%bool /\ sealed (loc st') = sealed (loc st).
  Proof.
    unfold initPyZEALServices. destruct (initialized st) eqn:I.
    { intro E. injection E as <- <-. split; [exact I|reflexivity]. }
    cbn [orb]. intro E.
    match type of E with then_ ?a ?k = _ => set (A := a) in E; set (K := k) in E end.
    assert (SA : same st (fst A)).
    { unfold A. unfold if_. destruct (flag_in mode (N.lor CLI SCRIPT)); [apply on_loc_same; apply register_sealed|split; reflexivity]. }
    assert (G : forall s, same st s -> let (s', r') := K s in initialized s' = is_ok r' /\ sealed (loc s') = sealed (loc st)).
    { clear E SA A. intros s S. unfold K. clear K.
      match goal with |- context [then_ ?a ?k] => set (A := a); set (K := k) end.
      assert (SA : same s (fst A)).
      { unfold A. destruct (with_logger user_instance DATE depth (txt "initialization_handler") w (loc s) (logs s)). split; reflexivity. }
      assert (G : forall s', same st s' -> let (s'', r') := K s' in initialized s'' = is_ok r' /\ sealed (loc s'') = sealed (loc st)).
      { clear SA A s S. intros s S. unfold K. clear K.
        match goal with |- context [then_ ?a ?k] => set (A := a); set (K := k) end.
        assert (SA : same s (fst A)).
        { unfold A, if_. destruct (flag_in mode SCRIPT); [apply on_loc_same; apply register_sealed|split; reflexivity]. }
        assert (G : forall s', same st s' -> let (s'', r') := K s' in initialized s'' = is_ok r' /\ sealed (loc s'') = sealed (loc st)).
        { clear SA A s S. intros s S. unfold K. clear K.
          match goal with |- context [then_ ?a ?k] => set (A := a); set (K := k) end.
          assert (SA : same s (fst A)).
          { unfold A, if_. destruct (flag_in mode CLI); [|split; reflexivity]. apply then_same.
            - apply on_loc_same. intro l. unfold registerAsSingleton. destruct (sealed l) eqn:Z; [exact Z|]. destruct (isinst user_instance OParser TParser) as [[]|]; first [exact Z|reflexivity].
            - intros s' S'. apply (same_trans _ s'); [exact S'|]. apply on_loc_same. apply register_sealed. }
          assert (G : forall s', same st s' -> let (s'', r') := K s' in initialized s'' = is_ok r' /\ sealed (loc s'') = sealed (loc st)).
          { clear SA A s S. intros s S. unfold K. clear K.
            match goal with |- context [then_ ?a ?k] => set (A := a); set (K := k) end.
            assert (SA : same s (fst A)).
            { unfold A, if_. destruct (negb (flag_in mode CLI)); [|split; reflexivity].
              destruct (with_logger user_instance DATE depth (txt "plugin_loader") w (loc s) (logs s)) as [lg r'].
              pose proof (loadPlugins_sealed stype_eqb find_module low r' listing (loc s)) as P.
              destruct (loadPlugins stype_eqb find_module low r' listing (loc s)) as [l r2]. split; [reflexivity|exact P]. }
            pose proof (same_trans _ _ _ S SA) as T. clear SA. destruct A as [s' [u|e]]; cbn [then_ fst] in *.
            - unfold K. destruct T as [T1 T2]. cbn [initialized loc is_ok]. split; [reflexivity|exact T2].
            - destruct T as [T1 T2]. cbn [is_ok]. split; [congruence|exact T2]. }
          pose proof (same_trans _ _ _ S SA) as T. clear SA. destruct A as [s' [u|e]]; cbn [then_ fst] in *; [exact (G s' T)|].
          destruct T as [T1 T2]. cbn [is_ok]. split; [congruence|exact T2]. }
        pose proof (same_trans _ _ _ S SA) as T. clear SA. destruct A as [s' [u|e]]; cbn [then_ fst] in *; [exact (G s' T)|].
        destruct T as [T1 T2]. cbn [is_ok]. split; [congruence|exact T2]. }
      pose proof (same_trans _ _ _ S SA) as T. clear SA. destruct A as [s' [u|e]]; cbn [then_ fst] in *; [exact (G s' T)|].
      destruct T as [T1 T2]. cbn [is_ok]. split; [congruence|exact T2]. }
    destruct A as [s' [u|e]]; cbn [then_ fst] in *.
    - specialize (G s' SA). rewrite E in G. exact G.
    - injection E as <- <-. destruct SA as [T1 T2]. cbn [is_ok]. split; [congruence|exact T2].
  Qed.

  Lemma calls_stable depth h1 h2 st : 
    let calls := init_calls user_instance algorithm_factory container_factory estimator_factory find_module low DATE (S depth) in
    initialized (calls h1 st) = true -> calls (h1 ++ h2) st = calls h1 st.
  Proof.
    cbn zeta. unfold init_calls. rewrite fold_left_app. set (s := fold_left _ h1 st). clearbody s. intro I.
    induction h2 as [|c h2 IH]; [reflexivity|]. cbn [fold_left]. rewrite init_again by exact I. exact IH.
  Qed.

  (** ** Installed plugins *)
  Lemma script_with_candidate depth w ns st n stem : find_module (txt "pyzeal_plugins") = Err ModuleNotFoundError ->
    Forall ascii ns -> In n ns -> ~ private n -> python_file n stem ->
    initialized st = false -> sealed (loc st) = false -> usable_logs (logs st) -> settings_available SCRIPT w (loc st) ->
    exists l1 lg e, init (S depth) SCRIPT w (Ok ns) st = (mkPyzeal l1 false true lg, Err e) /\ (e = ModuleNotFoundError \/ e = ImportError) /\
      extends algorithm_factory container_factory estimator_factory SCRIPT (loc st) l1 /\ usable_logs lg.
  Proof.
    intros F A Hin P Y I S U G.
    destruct (init_general user_instance algorithm_factory container_factory estimator_factory find_module low DATE depth SCRIPT w (Ok ns) st ltac:(reflexivity) I S U G)
      as (l1 & lg & X & U' & E). change (loads_plugins SCRIPT) with true in E. cbv iota in E.
    destruct (proj1 (never_loads stype_eqb find_module low ns l1 F A)) as (e & L & K). { exists n, stem. tauto. }
    rewrite L in E. exists l1, lg, e. tauto.
  Qed.
  Lemma script_without_candidate depth w ns st : find_module (txt "pyzeal_plugins") = Err ModuleNotFoundError ->
    Forall ascii ns -> (forall n stem, In n ns -> private n \/ ~ python_file n stem) ->
    initialized st = false -> sealed (loc st) = false -> usable_logs (logs st) -> settings_available SCRIPT w (loc st) ->
    exists l1 lg, init (S depth) SCRIPT w (Ok ns) st = (mkPyzeal l1 true true lg, Ok tt) /\
      extends algorithm_factory container_factory estimator_factory SCRIPT (loc st) l1.
  Proof.
    intros F A Q I S U G.
    destruct (init_general user_instance algorithm_factory container_factory estimator_factory find_module low DATE depth SCRIPT w (Ok ns) st ltac:(reflexivity) I S U G)
      as (l1 & lg & X & U' & E). change (loads_plugins SCRIPT) with true in E. cbv iota in E.
    rewrite (proj2 (never_loads stype_eqb find_module low ns l1 F A) Q) in E. exists l1, lg. tauto.
  Qed.
  Lemma cli_ok depth w listing st : initialized st = false -> sealed (loc st) = false -> usable_logs (logs st) -> settings_available CLI w (loc st) ->
    exists l1 lg, init (S depth) CLI w listing st = (mkPyzeal l1 true true lg, Ok tt) /\
      extends algorithm_factory container_factory estimator_factory CLI (loc st) l1.
  Proof.
    intros I S U G.
    destruct (init_general user_instance algorithm_factory container_factory estimator_factory find_module low DATE depth CLI w listing st ltac:(reflexivity) I S U G)
      as (l1 & lg & X & U' & E). exists l1, lg. tauto.
  Qed.

  Lemma installed_plugin_breaks depth fs DIR d cwd p q c ns1 ns2 w st stem :
    find_module (txt "pyzeal_plugins") = Err ModuleNotFoundError ->
    tree_ok fs -> plugin_dir fs DIR d -> leads_to fs cwd p q c -> fs (basename p :: d) = None ->
    ~ private (basename p) -> python_file (basename p) stem -> (forall n, fs (n :: d) <> None -> private n \/ forall stem, ~ python_file n stem) ->
    initialized st = false -> sealed (loc st) = false -> usable_logs (logs st) -> settings_available SCRIPT w (loc st) ->
    exists fs1 fs2, installPlugin DIR cwd p fs = (fs1, Ok true) /\ uninstallPlugin DIR cwd (basename p) fs1 = (fs2, Ok true) /\
      (lists fs1 d ns1 -> Forall ascii ns1 -> exists st1 e, init (S depth) SCRIPT w (Ok ns1) st = (st1, Err e) /\ (e = ModuleNotFoundError \/ e = ImportError) /\
         (lists fs2 d ns2 -> Forall ascii ns2 -> exists st2, init (S depth) SCRIPT w (Ok ns2) st1 = (st2, Ok tt) /\ initialized st2 = true)).
  Proof.
    intros F T D L Fr P Y Old I S U G.
    destruct (install_uninstall fs DIR d cwd p q c T D L Fr) as (fs1 & fs2 & E1 & E2 & Sm & _).
    exists fs1, fs2. split; [exact E1|]. split; [exact E2|]. intros L1 A1.
    assert (Q : q <> basename p :: d) by (intros ->; destruct L as [_ L]; congruence).
    destruct (install_file fs DIR d cwd T D p q c L Q ltac:(congruence)) as (fs1' & E1' & Df). rewrite E1 in E1'. injection E1' as <-.
    destruct (script_with_candidate depth w ns1 st (basename p) stem F A1) as (l1 & lg & e & E & K & X & U1); try assumption.
    { apply L1. destruct Df as [Df _]. rewrite Df. discriminate. }
    exists (mkPyzeal l1 false true lg), e. split; [exact E|]. split; [exact K|]. intros L2 A2.
    destruct X as (X1 & X2 & X3).
    destruct (script_without_candidate depth w ns2 (mkPyzeal l1 false true lg) F A2) as (l2 & lg2 & E3 & _); cbn [initialized loc logs]; try congruence; try exact U1.
    - intros n stem' Hn. apply L2 in Hn. rewrite Sm in Hn. destruct (Old n Hn) as [O|O]; [left; exact O|right; apply O].
    - destruct G as [(s & lv & G1 & G2)|(G1 & G2 & G3)].
      + left. exists s, lv. rewrite (X3 TSettings). split; assumption.
      + right. rewrite (X3 TSettings). split; [exact G1|]. split; assumption.
    - eexists. split; [exact E3|]. reflexivity.
  Qed.
End Init.
