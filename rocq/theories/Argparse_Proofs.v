(** * The command line parser: words *)
From Verif Require Import PyBase Json_Model Json_Proofs Settings_Model Cli_Model Main_Model Main_Spec Argparse_Model Argparse_Spec.
Open Scope list_scope.

Definition actions (l : level) : list action :=
  match l with Top => top_actions | Sub View => view_actions | Sub Change => change_actions | Sub Plugin => plugin_actions end.
Definition like_kind (k : kind) (t : takes) : Prop :=
  match t with
  | Nothing => k = StoreTrue
  | AWord cs => k = Store (option_map (map txt) cs)
  | TwoIntegers => k = StoreInts
  | Ends => k = Help \/ k = Version
  end.
Definition like (a : action) (e : entry) : Prop :=
  dest a = e_name e /\
  option_strings a = match e_letter e with Some c => [[45%N; c]] | None => [] end ++ [[45%N; 45%N] ++ txt (e_long e)] /\
  like_kind (act_kind a) (e_takes e).
Lemma likes l : Forall2 like (actions l) (entries l).
Proof.
  destruct l as [|[| |]]; repeat (apply Forall2_cons; [split; [reflexivity|]; split; [reflexivity|]; cbn; auto|]); apply Forall2_nil.
Qed.
Lemma Forall2_In_r {A B} (R : A -> B -> Prop) l m : Forall2 R l m -> forall b, In b m -> exists a, In a l /\ R a b.
Proof. induction 1 as [|a b l m H _ IH]; intros c I0; [destruct I0|]; destruct I0 as [E|E]; [subst c; exists a; split; [now left|exact H]|]. destruct (IH c E) as (x & I & R'). exists x. split; [now right|exact R']. Qed.
Lemma Forall2_In_l {A B} (R : A -> B -> Prop) l m : Forall2 R l m -> forall a, In a l -> exists b, In b m /\ R a b.
Proof. induction 1 as [|a b l m H _ IH]; intros c I0; [destruct I0|]; destruct I0 as [E|E]; [subst c; exists b; split; [now left|exact H]|]. destruct (IH c E) as (x & I & R'). exists x. split; [now right|exact R']. Qed.
Lemma action_for l e : In e (entries l) -> exists a, In a (actions l) /\ like a e.
Proof. apply (Forall2_In_r _ _ _ (likes l)). Qed.
Lemma entry_for l a : In a (actions l) -> exists e, In e (entries l) /\ like a e.
Proof. apply (Forall2_In_l _ _ _ (likes l)). Qed.

(** ** Prefixes *)
Lemma startswith_iff p : forall w, startswith w p = true <-> exists r, w = p ++ r.
Proof.
  induction p as [|c p IH]; intro w.
  - split; [intros _; exists w; reflexivity|intros _; destruct w; reflexivity].
  - destruct w as [|d w]; cbn [startswith]; [split; [discriminate|intros [r E]; discriminate]|]. destruct (N.eqb_spec c d) as [->|Ne].
    + rewrite IH. split; intros [r E]; exists r; [now rewrite E|]. injection E as E. exact E.
    + split; [discriminate|]. intros [r E]. injection E as E _. congruence.
Qed.
Lemma partition_none w : partition_eq w = (w, None) <-> ~ In 61%N w.
Proof.
  induction w as [|c w IH]; cbn [partition_eq]; [tauto|]. destruct (N.eqb_spec c equals) as [->|Ne].
  - split; [discriminate|]. intro H. exfalso. apply H. now left.
  - destruct (partition_eq w) as [h t] eqn:E. split.
    + intro H. injection H as -> ->. intros [Q|Q]; [exact (Ne Q)|]. apply (proj1 IH eq_refl Q).
    + intro H. assert (Q : ~ In 61%N w) by (intro Q; apply H; now right). apply IH in Q. now injection Q as -> ->.
Qed.
Lemma partition_some w h t : partition_eq w = (h, Some t) <-> w = h ++ 61%N :: t /\ ~ In 61%N h.
Proof.
  revert h t. induction w as [|c w IH]; intros h t; cbn [partition_eq].
  - split; [discriminate|]. intros [E _]. destruct h; discriminate.
  - destruct (N.eqb_spec c equals) as [->|Ne].
    + split; [intro H; injection H as <- <-; split; [reflexivity|intros []]|]. intros [E Q]. destruct h as [|x h]; [now injection E as ->|].
      injection E as <- _. exfalso. apply Q. now left.
    + destruct (partition_eq w) as [h' t'] eqn:E. split.
      * intro H. injection H as <- ->. destruct (proj1 (IH h' t) eq_refl) as [-> Q]. split; [reflexivity|]. intros [R|R]; [exact (Ne R)|exact (Q R)].
      * intros [W Q]. destruct h as [|x h]; [injection W as W _; destruct (Ne W)|]. injection W as <- W.
        assert (K : (h', t') = (h, Some t)) by (apply IH; split; [exact W|intro R; apply Q; now right]). now injection K as -> ->.
Qed.
Lemma partition_whole w : forall h, partition_eq w = (h, None) -> h = w.
Proof.
  induction w as [|c w IH]; intros h; cbn [partition_eq]; [intro H; now injection H as <-|]. destruct (N.eqb c equals); [discriminate|].
  destruct (partition_eq w) as [h' t'] eqn:F. intro H. injection H as <- ->. now rewrite (IH h' eq_refl).
Qed.
Lemma partition_cases w : (exists h t, partition_eq w = (h, Some t)) \/ partition_eq w = (w, None).
Proof. destruct (partition_eq w) as [h [t|]] eqn:E; [left; eauto|]. right. now rewrite (partition_whole w h E). Qed.

(** ** Finitely many words denote an option *)
Fixpoint prefixes (w : text) : list text := match w with [] => [] | c :: w' => [c] :: map (cons c) (prefixes w') end.
Lemma prefixes_spec p : forall w, p <> [] -> (exists r, w = p ++ r) -> In p (prefixes w).
Proof.
  induction p as [|c p IH]; intros w Hp [r E]; [congruence|]. subst w. cbn [app prefixes]. destruct p as [|d p]; [now left|]. right. apply in_map. apply IH; [discriminate|].
  exists r. reflexivity.
Qed.
Definition entry_words (e : entry) : list text :=
  match e_letter e with Some c => [[45%N; c]] | None => [] end ++ map (app [45%N; 45%N]) (prefixes (txt (e_long e))).
Lemma denotes_words l e w : denotes l e w -> In e (entries l) /\ In w (entry_words e).
Proof.
  intros [I [(c & E & ->)|(p & r & Hp & E & ->)]]; (split; [exact I|]); unfold entry_words; apply in_or_app.
  - left. rewrite E. now left.
  - right. apply in_map. apply prefixes_spec; [exact Hp|]. exists r. exact E.
Qed.

Definition action_letter (a : action) (c : N) : Prop := In [45%N; c] (option_strings a).
(** What a word denoting an option is read as; [x]: the text after a '='. *)
Definition glued (w : text) (x : option text) : text := match x with None => w | Some v => w ++ 61%N :: v end.
Definition level_list : list level := [Top; Sub View; Sub Change; Sub Plugin].
Lemma all_levels l : In l level_list.
Proof. destruct l as [|[| |]]; cbn; auto. Qed.
