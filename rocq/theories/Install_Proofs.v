(** * Plugin installation: proofs *)
From Verif Require Import PyBase Json_Model Json_Proofs Install_Model Install_Spec.
Open Scope list_scope.

Lemma place_eqb_eq a b : place_eqb a b = true <-> a = b.
Proof.
  revert b. induction a as [|x a IH]; intros [|y b]; cbn; try (split; congruence).
  rewrite andb_true_iff, IH, text_eqb_eq. split; [intros [-> ->]; reflexivity|intro H; injection H; auto].
Qed.
Lemma place_eqb_refl a : place_eqb a a = true.
Proof. apply place_eqb_eq. reflexivity. Qed.
Lemma store_same q n fs : store q n fs q = n.
Proof. unfold store. rewrite place_eqb_refl. reflexivity. Qed.
Lemma store_other q n fs q' : q' <> q -> store q n fs q' = fs q'.
Proof. intro H. unfold store. destruct (place_eqb q q') eqn:E; [|reflexivity]. apply place_eqb_eq in E. congruence. Qed.
Lemma store_differs q n fs : differs_at q n fs (store q n fs).
Proof. split; [apply store_same|]. intros q' H. apply store_other. exact H. Qed.

(** ** Paths *)
Lemma split_nonempty s : split_slash s <> [].
Proof. destruct s as [|c s]; cbn; [discriminate|]. destruct (N.eqb c slash); [discriminate|]. destruct (split_slash s); discriminate. Qed.
Lemma split_app a b : split_slash (a ++ slash :: b) = split_slash a ++ split_slash b.
Proof.
  induction a as [|c a IH]; [reflexivity|]. cbn [app split_slash]. rewrite IH. destruct (N.eqb c slash); [reflexivity|].
  destruct (split_slash a) eqn:E; [exfalso; exact (split_nonempty a E)|reflexivity].
Qed.
Lemma split_plain s : ~ In slash s -> split_slash s = [s].
Proof.
  induction s as [|c s IH]; intro H; [reflexivity|]. cbn. destruct (N.eqb_spec c slash) as [->|N]; [exfalso; apply H; left; reflexivity|].
  rewrite IH; [reflexivity|]. intro C. apply H. right. exact C.
Qed.
Lemma split_parts s : Forall (fun w => ~ In slash w) (split_slash s).
Proof.
  induction s as [|c s IH]; cbn; [repeat constructor; intros []|]. destruct (N.eqb_spec c slash) as [E|E].
  - constructor; [intros []|exact IH].
  - destruct (split_slash s) as [|w ws]; [repeat constructor; cbn; intuition congruence|]. inversion IH; subst. constructor; [|assumption].
    cbn. intuition congruence.
Qed.
Lemma basename_noslash s : ~ In slash (basename s).
Proof.
  unfold basename. pose proof (split_parts s) as H. pose proof (split_nonempty s) as N.
  destruct (exists_last N) as (l & x & E). rewrite E in *. rewrite last_last. apply Forall_app in H as [_ H]. inversion H. assumption.
Qed.
Lemma split_in s w c : In w (split_slash s) -> In c w -> In c s.
Proof.
  revert w. induction s as [|d s IH]; intros w; cbn; [intros [<-|[]] []|]. destruct (N.eqb d slash).
  - intros [<-|H] HC; [destruct HC|]. right. exact (IH w H HC).
  - destruct (split_slash s) as [|w0 ws]; [intros [<-|[]] HC; destruct HC as [<-|[]]; left; reflexivity|].
    intros [<-|H] HC.
    + destruct HC as [<-|HC]; [left; reflexivity|]. right. apply (IH w0); [left; reflexivity|exact HC].
    + right. apply (IH w); [right; exact H|exact HC].
Qed.
Lemma nul_false s : existsb (N.eqb 0%N) s = false <-> ~ In 0%N s.
Proof.
  split; intro H.
  - intro C. assert (existsb (N.eqb 0%N) s = true); [|congruence]. apply existsb_exists. exists 0%N. split; [exact C|reflexivity].
  - destruct (existsb (N.eqb 0%N) s) eqn:E; [|reflexivity]. apply existsb_exists in E as (x & HI & HE). apply N.eqb_eq in HE. subst. contradiction.
Qed.

Definition skip (c : text) : bool := (text_eqb c [] || text_eqb c (txt "."))%bool.
Lemma skip_iff c : skip c = true <-> c = [] \/ c = txt ".".
Proof. unfold skip. rewrite orb_true_iff, !text_eqb_eq. tauto. Qed.
Lemma walk_app fs a b : forall cur, walk fs cur (a ++ b) = bind (walk fs cur a) (fun q => walk fs q b).
Proof.
  induction a as [|c a IH]; intro cur; [reflexivity|]. cbn [app walk]. destruct (fs cur) as [[ct|]|]; [reflexivity| |reflexivity].
  destruct (_ || _)%bool; [apply IH|]. destruct (text_eqb c (txt "..")); apply IH.
Qed.
Definition step_place (c : text) (cur : place) : place := if skip c then cur else if text_eqb c (txt "..") then tl cur else c :: cur.
Lemma walk_one fs cur c : fs cur = Some NDir -> walk fs cur [c] = Ok (step_place c cur).
Proof. intro H. cbn [walk]. rewrite H. unfold step_place, skip. destruct (_ || _)%bool; [reflexivity|]. destruct (text_eqb c (txt "..")); reflexivity. Qed.
Lemma step_plain c cur : plain c -> step_place c cur = c :: cur.
Proof.
  intros (P1 & P2 & P3 & _). unfold step_place. destruct (skip c) eqn:E; [apply skip_iff in E; tauto|].
  destruct (text_eqb c (txt "..")) eqn:E2; [apply text_eqb_eq in E2; contradiction|reflexivity].
Qed.
Lemma walk_last fs cur comps q : comps <> [] -> walk fs cur comps = Ok q ->
  exists dir, walk fs cur (removelast comps) = Ok dir /\ fs dir = Some NDir /\ q = step_place (last comps []) dir.
Proof.
  intros NE H. rewrite (@app_removelast_last text comps [] NE) in H. rewrite walk_app in H.
  destruct (walk fs cur (removelast comps)) as [dir|] eqn:E; [|discriminate H]. cbn [bind] in H. exists dir. split; [reflexivity|].
  destruct (fs dir) as [[ct|]|] eqn:F; [cbn [walk] in H; rewrite F in H; discriminate H| |cbn [walk] in H; rewrite F in H; discriminate H].
  rewrite (walk_one fs dir _ F) in H. injection H as <-. auto.
Qed.
Lemma root_dir fs q : tree_ok fs -> fs q = Some NDir -> fs (tl q) = Some NDir.
Proof. intros (R & D & _) H. destruct q as [|n q]; [exact R|]. cbn [tl]. apply (D n). intro C. rewrite C in H. discriminate H. Qed.

(** A path to a file ends with its name. *)
Lemma file_name fs cwd s q ct : tree_ok fs -> leads_to fs cwd s q ct ->
  plain (basename s) /\ exists dir, q = basename s :: dir /\ fs dir = Some NDir.
Proof.
  intros T [L F]. unfold lookup in L. destruct (existsb (N.eqb 0%N) s) eqn:Z; [discriminate|]. apply nul_false in Z.
  destruct s as [|c s0]; [discriminate|]. remember (c :: s0) as s. clear Heqs c s0.
  destruct (walk_last _ _ _ _ (split_nonempty s) L) as (dir & _ & D & E). fold (basename s) in E.
  unfold step_place in E. destruct (skip (basename s)) eqn:K; [congruence|]. destruct (text_eqb (basename s) (txt "..")) eqn:K2.
  - pose proof (root_dir fs dir T D). congruence.
  - split; [|exists dir; auto]. split; [|split; [|split; [|split]]].
    + intro C. rewrite C in K. vm_compute in K. discriminate K.
    + intro C. rewrite C in K. vm_compute in K. discriminate K.
    + intro C. rewrite C in K2. vm_compute in K2. discriminate K2.
    + apply basename_noslash.
    + intro C. apply Z. apply (split_in s (basename s)); [|exact C]. unfold basename.
      destruct (exists_last (split_nonempty s)) as (l & x & EE). rewrite EE, last_last. apply in_or_app. right. left. reflexivity.
Qed.

Section Dir.
  Variables (fs : tree) (DIR : text) (d cwd : place).
  Hypothesis T : tree_ok fs.
  Hypothesis P : plugin_dir fs DIR d.

  Lemma dir_walk : DIR <> [] /\ ~ In 0%N DIR /\ walk fs [] (split_slash DIR) = Ok d.
  Proof.
    destruct P as (S & _ & L & _). specialize (L []). unfold lookup in L. destruct (existsb (N.eqb 0%N) DIR) eqn:Z; [discriminate|].
    apply nul_false in Z. destruct DIR as [|c D]; [discriminate|]. rewrite S in L. split; [discriminate|]. auto.
  Qed.
  Lemma join_noslash f : starts_with_slash f = false -> join DIR f = DIR ++ slash :: f.
  Proof.
    intro S. unfold join. rewrite S. destruct P as (_ & E & _). destruct dir_walk as (N & _). rewrite E. destruct DIR; [contradiction|reflexivity].
  Qed.
  Lemma lookup_child f : ~ In slash f -> ~ In 0%N f -> lookup fs cwd (join DIR f) = Ok (step_place f d).
  Proof.
    intros S Z. assert (SW : starts_with_slash f = false).
    { destruct f as [|c f]; [reflexivity|]. cbn. destruct (N.eqb_spec c slash); [|reflexivity]. exfalso. apply S. left. assumption. }
    rewrite (join_noslash f SW). unfold lookup. destruct dir_walk as (N & Z' & W).
    rewrite (proj2 (nul_false (DIR ++ slash :: f))) by (intro C; apply in_app_or in C; destruct C as [C|[C|C]]; [contradiction|discriminate|contradiction]).
    destruct P as (SS & _ & _ & ND). assert (E : starts_with_slash (DIR ++ slash :: f) = true) by (destruct DIR; [discriminate|exact SS]).
    rewrite E. destruct (DIR ++ slash :: f) eqn:EQ; [destruct DIR; discriminate|]. rewrite <- EQ. rewrite split_app, walk_app, W. cbn [bind].
    rewrite (split_plain f S). apply walk_one. exact ND.
  Qed.

  Lemma dir_is_dir : match lookup fs cwd DIR with Ok q => match fs q with Some NDir => true | _ => false end | Err _ => false end = true.
  Proof. destruct P as (_ & _ & L & ND). rewrite L, ND. reflexivity. Qed.

  Theorem install_file p q c : leads_to fs cwd p q c -> q <> basename p :: d -> fs (basename p :: d) <> Some NDir ->
    exists fs', installPlugin DIR cwd p fs = (fs', Ok true) /\ differs_at (basename p :: d) (Some (NFile c)) fs fs'.
  Proof.
    intros L NQ ND. destruct (file_name fs cwd p q c T L) as (PB & dir & EQ & _). destruct L as [L F].
    exists (store (basename p :: d) (Some (NFile c)) fs). split; [|apply store_differs].
    unfold installPlugin, exists_. rewrite L, F. cbn [negb]. unfold copy. rewrite dir_is_dir, L.
    pose proof PB as (_ & _ & _ & NS & NZ). rewrite (lookup_child _ NS NZ), (step_plain _ d PB).
    destruct (place_eqb q (basename p :: d)) eqn:E; [apply place_eqb_eq in E; contradiction|]. rewrite F. cbn [tl].
    destruct P as (_ & _ & _ & PD). rewrite PD. destruct (fs (basename p :: d)) as [[ct|]|]; [reflexivity|contradiction|reflexivity].
  Qed.
  Theorem install_missing p : exists_ fs cwd p = false -> installPlugin DIR cwd p fs = (fs, Ok false).
  Proof. intro H. unfold installPlugin. rewrite H. reflexivity. Qed.
  Theorem install_refused p q : lookup fs cwd p = Ok q -> fs q = Some NDir \/ q = basename p :: d /\ fs q <> None \/ fs q <> None /\ fs (basename p :: d) = Some NDir ->
    installPlugin DIR cwd p fs = (fs, Err OSError).
  Proof.
    intros L H. unfold installPlugin, exists_. rewrite L. destruct (fs q) as [n|] eqn:F; [|intuition congruence]. cbn [negb].
    unfold copy. rewrite dir_is_dir, L.
    assert (Z : ~ In 0%N p). { unfold lookup in L. destruct (existsb (N.eqb 0%N) p) eqn:Z; [discriminate|]. apply nul_false. exact Z. }
    assert (Z' : ~ In 0%N (basename p)).
    { intro C. apply Z. apply (split_in p (basename p)); [|exact C]. unfold basename.
      destruct (exists_last (split_nonempty p)) as (l & x & EE). rewrite EE, last_last. apply in_or_app. right. left. reflexivity. }
    rewrite (lookup_child _ (basename_noslash p) Z').
    destruct n as [ct|].
    - pose proof (conj L F : leads_to fs cwd p q ct) as LT. destruct (file_name fs cwd p q ct T LT) as (PB & _).
      rewrite (step_plain _ d PB). destruct H as [H|[[H _]|[_ H]]]; [discriminate| |].
      + subst q. rewrite place_eqb_refl. reflexivity.
      + destruct (place_eqb q _); [reflexivity|]. rewrite F, H. reflexivity.
    - destruct (place_eqb q _); [reflexivity|]. rewrite F. reflexivity.
  Qed.

  Theorem uninstall_plain f : plain f ->
    match fs (f :: d) with
    | Some (NFile _) => exists fs', uninstallPlugin DIR cwd f fs = (fs', Ok true) /\ differs_at (f :: d) None fs fs'
    | _ => uninstallPlugin DIR cwd f fs = (fs, Ok false)
    end.
  Proof.
    intro PF. pose proof PF as (_ & _ & _ & NS & NZ). unfold uninstallPlugin, remove. rewrite (lookup_child _ NS NZ), (step_plain _ d PF).
    destruct (fs (f :: d)) as [[ct|]|]; [|reflexivity|reflexivity]. exists (store (f :: d) None fs). split; [reflexivity|apply store_differs].
  Qed.
End Dir.

Lemma walk_error fs comps : forall cur e, walk fs cur comps = Err e -> e = FileNotFoundError \/ e = OSError.
Proof.
  induction comps as [|x comps IH]; intros cur e; cbn [walk]; [discriminate|].
  destruct (fs cur) as [[ct|]|]; [intro H; injection H as <-; auto| |intro H; injection H as <-; auto].
  destruct (_ || _)%bool; [apply IH|]. destruct (text_eqb x (txt "..")); apply IH.
Qed.
(** Whatever the name: at most the one file its path leads to is removed. *)
Theorem uninstall_any fs DIR cwd f : 
  (exists q c fs', leads_to fs cwd (join DIR f) q c /\ uninstallPlugin DIR cwd f fs = (fs', Ok true) /\ differs_at q None fs fs') \/
  (forall q c, ~ leads_to fs cwd (join DIR f) q c) /\ uninstallPlugin DIR cwd f fs = (fs, Ok false) \/
  In 0%N (join DIR f) /\ uninstallPlugin DIR cwd f fs = (fs, Err ValueError).
Proof.
  unfold uninstallPlugin, remove, leads_to.
  destruct (lookup fs cwd (join DIR f)) as [q|e] eqn:L.
  - destruct (fs q) as [[ct|]|] eqn:F.
    + left. exists q, ct, (store q None fs). split; [auto|]. split; [reflexivity|apply store_differs].
    + right. left. split; [|reflexivity]. intros q' c [E1 E2]. injection E1 as <-. congruence.
    + right. left. split; [|reflexivity]. intros q' c [E1 E2]. injection E1 as <-. congruence.
  - assert (E : e = ValueError /\ In 0%N (join DIR f) \/ e = FileNotFoundError \/ e = OSError).
    { unfold lookup in L. destruct (existsb (N.eqb 0%N) (join DIR f)) eqn:Z.
      - left. injection L as <-. split; [reflexivity|]. apply existsb_exists in Z as (x & HI & HE). apply N.eqb_eq in HE. subst. exact HI.
      - right. destruct (join DIR f) as [|c s]; [injection L as <-; auto|]. exact (walk_error _ _ _ _ L). }
    right. destruct E as [[-> Z]|[->| ->]]; [right; auto|left|left]; (split; [|reflexivity]); intros q c [E _]; discriminate.
Qed.

(** Absolute paths are removed wherever they lead; so is a sibling of the plugin directory. *)
Theorem uninstall_absolute fs DIR cwd s q c : starts_with_slash s = true -> leads_to fs cwd s q c ->
  exists fs', uninstallPlugin DIR cwd s fs = (fs', Ok true) /\ differs_at q None fs fs'.
Proof.
  intros S [L F]. exists (store q None fs). split; [|apply store_differs]. unfold uninstallPlugin, remove, join. rewrite S, L, F. reflexivity.
Qed.
Theorem uninstall_sibling fs DIR d cwd f c : plugin_dir fs DIR d -> tree_ok fs -> plain f -> fs (f :: tl d) = Some (NFile c) ->
  exists fs', uninstallPlugin DIR cwd (txt "../" ++ f) fs = (fs', Ok true) /\ differs_at (f :: tl d) None fs fs'.
Proof.
  intros P T PF F. pose proof PF as (_ & _ & _ & NS & NZ). exists (store (f :: tl d) None fs). split; [|apply store_differs].
  destruct (dir_walk fs DIR d P) as (N & Z & W). pose proof P as (SS & _ & _ & ND).
  unfold uninstallPlugin, remove. rewrite (join_noslash fs DIR d P) by reflexivity. unfold lookup.
  rewrite (proj2 (nul_false (DIR ++ slash :: txt "../" ++ f))) by
    (intro C; apply in_app_or in C; destruct C as [C|C]; [contradiction|]; destruct C as [C|[C|[C|[C|C]]]]; try discriminate C; contradiction).
  assert (E : starts_with_slash (DIR ++ slash :: txt "../" ++ f) = true) by (destruct DIR; [discriminate|exact SS]).
  rewrite E. destruct (DIR ++ slash :: txt "../" ++ f) eqn:EQ; [destruct DIR; discriminate|]. rewrite <- EQ.
  rewrite split_app, walk_app, W. cbn [bind].
  change (txt "../" ++ f) with (txt ".." ++ slash :: f). rewrite split_app, walk_app, (split_plain (txt "..")) by (cbn; intuition discriminate).
  rewrite (walk_one fs d _ ND). cbn [bind]. change (step_place (txt "..") d) with (tl d). rewrite (split_plain f NS).
  rewrite (walk_one fs (tl d)) by (apply root_dir; assumption). rewrite (step_plain f _ PF), F. reflexivity.
Qed.

(** ** Histories *)
Definition same_dirs (fs fs' : tree) : Prop := forall q, fs q = Some NDir <-> fs' q = Some NDir.
Lemma same_dirs_walk fs fs' comps : same_dirs fs fs' -> forall cur q, walk fs cur comps = Ok q -> walk fs' cur comps = Ok q.
Proof.
  intro S. induction comps as [|c comps IH]; intros cur q; cbn [walk]; [auto|].
  destruct (fs cur) as [[ct|]|] eqn:F; [discriminate| |discriminate]. apply S in F. rewrite F.
  destruct (_ || _)%bool; [apply IH|]. destruct (text_eqb c (txt "..")); apply IH.
Qed.
Lemma same_dirs_plugin_dir fs fs' DIR d : same_dirs fs fs' -> plugin_dir fs DIR d -> plugin_dir fs' DIR d.
Proof.
  intros S P. pose proof P as (S1 & S2 & L & ND). destruct (dir_walk fs DIR d P) as (N & Z & W). split; [exact S1|]. split; [exact S2|]. split; [|apply S; exact ND].
  intro cwd. unfold lookup. rewrite (proj2 (nul_false DIR) Z), S1. destruct DIR; [contradiction|]. exact (same_dirs_walk fs fs' _ S _ _ W).
Qed.
Lemma differs_same_dirs q n fs fs' : fs q <> Some NDir -> n <> Some NDir -> differs_at q n fs fs' -> same_dirs fs fs'.
Proof.
  intros H1 H2 [D1 D2] q'. destruct (place_eqb q q') eqn:E.
  - apply place_eqb_eq in E. subst q'. rewrite D1. split; intro; contradiction.
  - rewrite D2; [tauto|]. intro C. subst. rewrite place_eqb_refl in E. discriminate.
Qed.
Lemma place_dec (a b : place) : {a = b} + {a <> b}.
Proof. destruct (place_eqb a b) eqn:E; [left; apply place_eqb_eq; exact E|right; intro C; apply place_eqb_eq in C; congruence]. Qed.
Lemma tree_ok_file f d c fs fs' : tree_ok fs -> plain f -> fs d = Some NDir -> fs (f :: d) <> Some NDir ->
  differs_at (f :: d) (Some (NFile c)) fs fs' -> tree_ok fs'.
Proof.
  intros (R & D & NM) PF ND NF [D1 D2]. assert (S : same_dirs fs fs') by (apply (differs_same_dirs (f :: d) (Some (NFile c))); [exact NF|discriminate|split; assumption]).
  split; [apply S; exact R|]. split.
  - intros n q H. apply S. destruct (place_dec (n :: q) (f :: d)) as [E|E]; [injection E as -> ->; exact ND|]. rewrite D2 in H by exact E. exact (D n q H).
  - intros n q H. destruct (place_dec (n :: q) (f :: d)) as [E|E]; [injection E as -> ->; destruct PF as (A & B & C & _); auto|]. rewrite D2 in H by exact E. exact (NM n q H).
Qed.
Lemma tree_ok_gone f d fs fs' : tree_ok fs -> fs (f :: d) <> Some NDir -> differs_at (f :: d) None fs fs' -> tree_ok fs'.
Proof.
  intros (R & D & NM) NF [D1 D2]. assert (S : same_dirs fs fs') by (apply (differs_same_dirs (f :: d) None); [exact NF|discriminate|split; assumption]).
  split; [apply S; exact R|]. split.
  - intros n q H. apply S. destruct (place_dec (n :: q) (f :: d)) as [E|E]; [congruence|]. rewrite D2 in H by exact E. exact (D n q H).
  - intros n q H. destruct (place_dec (n :: q) (f :: d)) as [E|E]; [congruence|]. rewrite D2 in H by exact E. exact (NM n q H).
Qed.

Definition kept (d : place) (fs fs' : tree) : Prop :=
  same_dirs fs fs' /\ tree_ok fs' /\ forall q, (forall n, q <> n :: d) -> fs' q = fs q.
Lemma kept_refl d fs : tree_ok fs -> kept d fs fs.
Proof. intro T. split; [intro q; tauto|]. split; [exact T|reflexivity]. Qed.
Lemma call_kept DIR d cwd c fs : tree_ok fs -> plugin_dir fs DIR d -> plain_call c -> kept d fs (perform_call DIR cwd c fs).
Proof.
  intros T P PC. destruct c as [p|f]; cbn [perform_call].
  - destruct (exists_ fs cwd p) eqn:EX; [|rewrite (install_missing fs DIR cwd p EX); apply kept_refl; exact T].
    pose proof EX as EX'. unfold exists_ in EX'. destruct (lookup fs cwd p) as [q|] eqn:L; [|discriminate]. destruct (fs q) as [[c|]|] eqn:F; [| |discriminate].
    + destruct (place_dec q (basename p :: d)) as [E|E].
      * rewrite (install_refused fs DIR d cwd T P p q L); [apply kept_refl; exact T|]. right. left. split; [exact E|congruence].
      * destruct (fs (basename p :: d)) as [[ct|]|] eqn:FB.
        -- destruct (install_file fs DIR d cwd T P p q c (conj L F) E) as (fs' & R & D); [congruence|]. rewrite R. cbn [fst].
           split; [apply (differs_same_dirs _ _ _ _) in D; [exact D|congruence|discriminate]|]. destruct P as (_ & _ & _ & ND).
           destruct (file_name fs cwd p q c T (conj L F)) as (PB & _).
           split; [apply (tree_ok_file (basename p) d c fs fs' T PB ND); [congruence|exact D]|]. intros q' H. apply D. apply H.
        -- rewrite (install_refused fs DIR d cwd T P p q L); [apply kept_refl; exact T|]. right. right. split; congruence.
        -- destruct (install_file fs DIR d cwd T P p q c (conj L F) E) as (fs' & R & D); [congruence|]. rewrite R. cbn [fst].
           split; [apply (differs_same_dirs _ _ _ _) in D; [exact D|congruence|discriminate]|]. destruct P as (_ & _ & _ & ND).
           destruct (file_name fs cwd p q c T (conj L F)) as (PB & _).
           split; [apply (tree_ok_file (basename p) d c fs fs' T PB ND); [congruence|exact D]|]. intros q' H. apply D. apply H.
    + rewrite (install_refused fs DIR d cwd T P p q L); [apply kept_refl; exact T|]. left. exact F.
  - cbn [plain_call] in PC. pose proof (uninstall_plain fs DIR d cwd P f PC) as U. destruct (fs (f :: d)) as [[ct|]|] eqn:F.
    + destruct U as (fs' & R & D). rewrite R. cbn [fst]. split; [apply (differs_same_dirs _ _ _ _) in D; [exact D|congruence|discriminate]|].
      split; [apply (tree_ok_gone f d fs fs' T); [congruence|exact D]|]. intros q' H. apply D. apply H.
    + rewrite U. apply kept_refl. exact T.
    + rewrite U. apply kept_refl. exact T.
Qed.
Theorem calls_confined DIR d cwd h : forall fs, tree_ok fs -> plugin_dir fs DIR d -> Forall plain_call h ->
  (forall q, (forall n, q <> n :: d) -> calls DIR cwd h fs q = fs q) /\
  (forall q, calls DIR cwd h fs q = Some NDir <-> fs q = Some NDir) /\ tree_ok (calls DIR cwd h fs) /\ plugin_dir (calls DIR cwd h fs) DIR d.
Proof.
  induction h as [|c h IH]; intros fs T P H.
  - unfold calls. cbn [fold_left]. split; [reflexivity|]. split; [intro q; tauto|]. auto.
  - inversion H as [|? ? Hc Hh]; subst. destruct (call_kept DIR d cwd c fs T P Hc) as (S & T' & K).
    destruct (IH _ T' (same_dirs_plugin_dir _ _ _ _ S P) Hh) as (I1 & I2 & I3). unfold calls in *. cbn [fold_left]. split; [|split; [|exact I3]].
    + intros q N. rewrite (I1 q N). apply K. exact N.
    + intro q. rewrite I2. symmetry. apply S.
Qed.

(** Installing, then uninstalling. *)
Theorem install_uninstall fs DIR d cwd p q c : tree_ok fs -> plugin_dir fs DIR d -> leads_to fs cwd p q c -> fs (basename p :: d) = None ->
  exists fs1 fs2, installPlugin DIR cwd p fs = (fs1, Ok true) /\ uninstallPlugin DIR cwd (basename p) fs1 = (fs2, Ok true) /\ same_tree fs fs2 /\
    uninstallPlugin DIR cwd (basename p) fs2 = (fs2, Ok false).
Proof.
  intros T P L F. destruct (file_name fs cwd p q c T L) as (PB & _).
  assert (NQ : q <> basename p :: d) by (intro C; destruct L; congruence).
  destruct (install_file fs DIR d cwd T P p q c L NQ) as (fs1 & R & D); [congruence|].
  assert (S : same_dirs fs fs1) by (apply (differs_same_dirs (basename p :: d) (Some (NFile c))); [congruence|discriminate|exact D]).
  pose proof (same_dirs_plugin_dir _ _ _ _ S P) as P1. pose proof (uninstall_plain fs1 DIR d cwd P1 _ PB) as U.
  rewrite (proj1 D) in U. destruct U as (fs2 & R2 & D2). exists fs1, fs2. split; [exact R|]. split; [exact R2|].
  assert (ST : same_tree fs fs2).
  { intro q'. destruct (place_dec q' (basename p :: d)) as [->|N]; [rewrite (proj1 D2), F; reflexivity|].
    rewrite (proj2 D2 q' N). apply (proj2 D q' N). }
  split; [exact ST|].
  assert (S2 : same_dirs fs fs2) by (intro q'; rewrite (ST q'); tauto).
  pose proof (uninstall_plain fs2 DIR d cwd (same_dirs_plugin_dir _ _ _ _ S2 P) _ PB) as U2. rewrite (proj1 D2) in U2. exact U2.
Qed.

(** ** A concrete tree *)
Definition dirs0 : list place := [[]; [txt "pz"]; [txt "plugins"; txt "pz"]; [txt "home"]].
Definition tree0 : tree := fun q =>
  if existsb (place_eqb q) dirs0 then Some NDir
  else if place_eqb q [txt "__init__.py"; txt "plugins"; txt "pz"] then Some (NFile [])
  else if place_eqb q [txt "core.py"; txt "pz"] then Some (NFile (txt "core"))
  else if place_eqb q [txt "my.py"; txt "home"] then Some (NFile (txt "mine"))
  else if place_eqb q [txt "old.py"; txt "plugins"; txt "pz"] then Some (NFile (txt "old"))
  else if place_eqb q [txt "old.py"; txt "home"] then Some (NFile (txt "new"))
  else None.
Definition DIR0 : text := txt "/pz/plugins".
Lemma tree0_shape q : tree0 q <> None -> In q (dirs0 ++ [[txt "__init__.py"; txt "plugins"; txt "pz"]; [txt "core.py"; txt "pz"];
  [txt "my.py"; txt "home"]; [txt "old.py"; txt "plugins"; txt "pz"]; [txt "old.py"; txt "home"]]).
Proof.
  unfold tree0. destruct (existsb (place_eqb q) dirs0) eqn:E.
  - intros _. apply in_or_app. left. apply existsb_exists in E as (x & HI & HE). apply place_eqb_eq in HE. subst. exact HI.
  - intro H. apply in_or_app. right. cbn [In].
    repeat match type of H with (if place_eqb q ?a then _ else _) <> None => let E := fresh in destruct (place_eqb q a) eqn:E; [apply place_eqb_eq in E; subst q; tauto|] end.
    congruence.
Qed.
Lemma tree0_ok : tree_ok tree0.
Proof.
  split; [reflexivity|]. split; intros n q H; apply tree0_shape in H; cbn [app dirs0 In] in H;
    repeat (destruct H as [H|H]; [first [discriminate H|injection H as <- <-; first [reflexivity|split; [discriminate|split; discriminate]]]|]); destruct H.
Qed.
Lemma dir0_ok : plugin_dir tree0 DIR0 [txt "plugins"; txt "pz"].
Proof. repeat split. Qed.
Lemma silent_overwrite : exists fs1 fs2, installPlugin DIR0 [] (txt "/home/old.py") tree0 = (fs1, Ok true) /\
  uninstallPlugin DIR0 [] (txt "old.py") fs1 = (fs2, Ok true) /\
  tree0 [txt "old.py"; txt "plugins"; txt "pz"] = Some (NFile (txt "old")) /\ fs1 [txt "old.py"; txt "plugins"; txt "pz"] = Some (NFile (txt "new")) /\
  fs2 [txt "old.py"; txt "plugins"; txt "pz"] = None.
Proof. eexists. eexists. split; [reflexivity|]. split; [reflexivity|]. repeat split. Qed.
Lemma escape : exists fs1, uninstallPlugin DIR0 [] (txt "../core.py") tree0 = (fs1, Ok true) /\
  tree0 [txt "core.py"; txt "pz"] = Some (NFile (txt "core")) /\ fs1 [txt "core.py"; txt "pz"] = None.
Proof. eexists. split; [reflexivity|]. split; reflexivity. Qed.

Lemma data_path fs DIR d cwd f : plugin_dir fs DIR d -> plain f -> lookup fs cwd (returnDataPath f DIR) = Ok (f :: d).
Proof.
  intros P F. unfold returnDataPath. rewrite (lookup_child fs DIR d cwd P f) by apply F. rewrite step_plain by exact F. reflexivity.
Qed.
