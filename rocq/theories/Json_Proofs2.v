(** * JSON text: round trip, canonical values, truncated files *)
From Verif Require Import PyBase Json_Model Json_Proofs.
From Coq Require Import Ascii ZifyN ZifyBool.
Open Scope N_scope.
Ltac Zify.zify_post_hook ::= Z.div_mod_to_equations.

Section Ind.
  Variable P : json -> Prop.
  Hypothesis Hnull : P JNull.
  Hypothesis Hbool : forall b, P (JBool b).
  Hypothesis Hint : forall z, P (JInt z).
  Hypothesis Hfloat : forall l, P (JFloat l).
  Hypothesis Hstr : forall s, P (JStr s).
  Hypothesis Hlist : forall l, Forall P l -> P (JList l).
  Hypothesis Hobj : forall d, Forall (fun p => P (snd p)) d -> P (JObj d).
  Fixpoint json_ind' (v : json) : P v :=
    match v with
    | JNull => Hnull
    | JBool b => Hbool b
    | JInt z => Hint z
    | JFloat l => Hfloat l
    | JStr s => Hstr s
    | JList l => Hlist l ((fix all (l : list json) : Forall P l :=
        match l with [] => Forall_nil _ | x :: l' => Forall_cons x (json_ind' x) (all l') end) l)
    | JObj d => Hobj d ((fix all (d : list (text * json)) : Forall (fun p => P (snd p)) d :=
        match d with [] => Forall_nil _ | p :: d' => Forall_cons p (json_ind' (snd p)) (all d') end) d)
    end.
End Ind.

(** Values that reading can produce: distinct keys, strings without split surrogate pairs. *)
Fixpoint canonical (v : json) : Prop :=
  match v with
  | JNull | JBool _ | JInt _ => True
  | JFloat l => scalar_text (JFloat l) l
  | JStr s => wf_chars s
  | JList l => (fix all (l : list json) : Prop := match l with [] => True | x :: l' => canonical x /\ all l' end) l
  | JObj d => NoDup (map fst d) /\
      (fix all (d : list (text * json)) : Prop :=
         match d with [] => True | (k, x) :: d' => (wf_chars k /\ canonical x) /\ all d' end) d
  end.
Definition canonical_dict (d : list (text * json)) : Prop :=
  NoDup (map fst d) /\ Forall (fun p => wf_chars (fst p) /\ canonical (snd p)) d.

Lemma canonical_list l : canonical (JList l) <-> Forall canonical l.
Proof.
  cbn [canonical]. induction l as [|x l IH]; [split; constructor|]. split.
  - intros [H1 H2]. constructor; [exact H1|apply IH; exact H2].
  - intro H. inversion H; subst. split; [assumption|apply IH; assumption].
Qed.
Lemma canonical_obj d : canonical (JObj d) <-> canonical_dict d.
Proof.
  cbn [canonical]. unfold canonical_dict. assert (E : forall d,
    (fix all (d : list (text * json)) : Prop :=
         match d with [] => True | (k, x) :: d' => (wf_chars k /\ canonical x) /\ all d' end) d
    <-> Forall (fun p => wf_chars (fst p) /\ canonical (snd p)) d).
  { clear. induction d as [|[k x] d IH]; [split; constructor|]. split.
    - intros [H1 H2]. constructor; [exact H1|apply IH; exact H2].
    - intro H. inversion H; subst. split; [assumption|apply IH; assumption]. }
  rewrite E. tauto.
Qed.

(** ** Integers *)
Lemma nat_value_snoc a c : nat_value (a ++ [c]) = 10 * nat_value a + (c - 48).
Proof. unfold nat_value. rewrite fold_left_app. reflexivity. Qed.

Lemma digits_fuel_ok k : forall n, n < 2 ^ N.of_nat k -> (1 <= k)%nat ->
  nat_value (digits_fuel k n) = n /\ Forall (fun c => is_digit c = true) (digits_fuel k n) /\
  digits_fuel k n <> [] /\ (n <> 0 -> hd 0 (digits_fuel k n) <> 48) /\ (n = 0 -> digits_fuel k n = [48]).
Proof.
  induction k as [|k IH]; intros n B K; [lia|]. cbn [digits_fuel].
  destruct (n <? 10) eqn:E.
  - repeat split.
    + unfold nat_value. cbn [fold_left]. lia.
    + constructor; [|constructor]. unfold is_digit. lia.
    + discriminate.
    + cbn [hd]. lia.
    + intros ->. reflexivity.
  - replace (N.of_nat (S k)) with (N.succ (N.of_nat k)) in B by lia. rewrite N.pow_succ_r' in B.
    destruct k as [|k]; [change (2 ^ N.of_nat 0) with 1 in B; lia|].
    destruct (IH (n / 10) ltac:(lia) ltac:(lia)) as (I1 & I2 & I3 & I4 & I5).
    repeat split.
    + rewrite nat_value_snoc, I1. lia.
    + apply Forall_app. split; [exact I2|]. constructor; [|constructor]. unfold is_digit. lia.
    + destruct (digits_fuel (S k) (n / 10)); discriminate.
    + intros _. destruct (digits_fuel (S k) (n / 10)) as [|c ds] eqn:D; [congruence|]. cbn [app hd] in *. apply I4. lia.
    + intros ->. lia.
Qed.

Lemma size_nat_bound n : n < 2 ^ N.of_nat (N.size_nat n).
Proof.
  destruct n as [|p]; [reflexivity|]. cbn [N.size_nat]. induction p as [p IH|p IH|]; cbn [Pos.size_nat].
  - replace (N.of_nat (S (Pos.size_nat p))) with (N.succ (N.of_nat (Pos.size_nat p))) by lia. rewrite N.pow_succ_r'. lia.
  - replace (N.of_nat (S (Pos.size_nat p))) with (N.succ (N.of_nat (Pos.size_nat p))) by lia. rewrite N.pow_succ_r'. lia.
  - reflexivity.
Qed.

Lemma digits_ok n : nat_value (digits n) = n /\ wf_nat (digits n).
Proof.
  unfold digits. destruct (digits_fuel_ok (S (N.size_nat n)) n) as (I1 & I2 & I3 & I4 & I5).
  - pose proof (size_nat_bound n) as B. replace (N.of_nat (S (N.size_nat n))) with (N.succ (N.of_nat (N.size_nat n))) by lia.
    rewrite N.pow_succ_r'. lia.
  - lia.
  - split; [exact I1|]. destruct (N.eq_dec n 0) as [Z|NZ]; [left; exact (I5 Z)|right].
    split; [split; assumption|exact (I4 NZ)].
Qed.

Lemma enc_int_ok z : scalar_text (JInt z) (enc_int z).
Proof.
  left. exists (enc_int z), [], []. destruct (digits_ok (Z.abs_N z)) as [V W]. unfold enc_int.
  destruct (z <? 0)%Z eqn:E.
  - split; [right; eauto|]. do 2 (split; [left; reflexivity|]). split; [rewrite !app_nil_r; reflexivity|].
    cbn [app int_value]. change (45 =? 45) with true. cbn match. rewrite V. f_equal. lia.
  - split; [left; exact W|]. do 2 (split; [left; reflexivity|]). split; [rewrite !app_nil_r; reflexivity|].
    cbn [app]. destruct (wf_nat_head _ W) as (c & ds & D & DD). rewrite D in *. cbn [int_value]. unfold is_digit in DD.
    replace (c =? 45) with false by lia. rewrite V. f_equal. lia.
Qed.

(** ** Round trip *)
Definition items_l (level : nat) : list json -> text :=
  fix items (l : list json) : text :=
    match l with
    | [] => []
    | y :: l' => 44 :: newline (S level) ++ enc (S level) y ++ items l'
    end.
Definition items_d (level : nat) : list (text * json) -> text :=
  fix items (d : list (text * json)) : text :=
    match d with
    | [] => []
    | (k', y) :: d' => 44 :: newline (S level) ++ enc_str k' ++ [58; 32] ++ enc (S level) y ++ items d'
    end.
Lemma enc_list level x l : enc level (JList (x :: l)) =
  91 :: newline (S level) ++ enc (S level) x ++ items_l level l ++ newline level ++ [93].
Proof. reflexivity. Qed.
Lemma enc_obj level k x d : enc level (JObj ((k, x) :: d)) =
  123 :: newline (S level) ++ enc_str k ++ [58; 32] ++ enc (S level) x ++ items_d level d ++ newline level ++ [125].
Proof. reflexivity. Qed.

Lemma enc_head v level : canonical v -> exists c w, enc level v = c :: w /\ is_ws c = false /\ c <> 93 /\ c <> 125.
Proof.
  intro C. destruct v as [|b|z|l|s|l|d].
  - eexists _, _. split; [reflexivity|]. repeat split; discriminate.
  - destruct b; (eexists _, _; split; [reflexivity|]; repeat split; discriminate).
  - destruct (scalar_text_head _ _ (enc_int_ok z)) as (c & w & E & H). exists c, w. split; [exact E|tauto].
  - destruct (scalar_text_head _ _ C) as (c & w & E & H). exists c, w. split; [exact E|tauto].
  - eexists _, _. split; [reflexivity|]. repeat split; discriminate.
  - destruct l as [|x l]; (eexists _, _; split; [reflexivity|]; repeat split; discriminate).
  - destruct d as [|[k x] d]; (eexists _, _; split; [reflexivity|]; repeat split; discriminate).
Qed.

Lemma starts_delim_items_l level l t : starts_delim (items_l level l ++ newline level ++ t).
Proof. destruct l; reflexivity. Qed.
Lemma starts_delim_items_d level d t : starts_delim (items_d level d ++ newline level ++ t).
Proof. destruct d as [|[k x] d]; reflexivity. Qed.

Definition reads_back (v : json) : Prop :=
  forall level t, starts_delim t \/ opens (enc level v) -> exists n, pvalue n (enc level v ++ t) = Some (v, t).

Lemma scalar_reads v w t : scalar_text v w -> starts_delim t -> pvalue 1 (w ++ t) = Some (v, t).
Proof.
  intros W T. pose proof (scan_scalar_complete v w t W T) as S. destruct (scalar_text_head v w W) as (c & w' & -> & H).
  cbn [app pvalue] in *. replace (c =? 34) with false by lia. replace (c =? 123) with false by lia. replace (c =? 91) with false by lia. exact S.
Qed.

Lemma skip_enc v level t : canonical v -> skip_ws (newline (S level) ++ enc (S level) v ++ t) = enc (S level) v ++ t.
Proof.
  intro C. rewrite skip_newline. destruct (enc_head v (S level) C) as (c & w & -> & W & _). apply skip_ws_nows. exact W.
Qed.

Lemma elements_read level l : forall x t, canonical x -> reads_back x -> Forall canonical l -> Forall reads_back l ->
  exists n, pelements n (enc (S level) x ++ items_l level l ++ newline level ++ 93 :: t) = Some (x :: l, t).
Proof.
  induction l as [|y l IH]; intros x t Cx Rx Cl Rl.
  - destruct (Rx (S level) (newline level ++ 93 :: t) (or_introl (starts_delim_items_l level [] (93 :: t)))) as (n & E).
    exists (S n). rewrite pelements_S. unfold ebody. cbn [items_l app]. rewrite E, skip_newline, skip_ws_nows by reflexivity. reflexivity.
  - inversion Cl; inversion Rl; subst.
    destruct (Rx (S level) (items_l level (y :: l) ++ newline level ++ 93 :: t) (or_introl (starts_delim_items_l level (y :: l) (93 :: t)))) as (n1 & E1).
    destruct (IH y t ltac:(assumption) ltac:(assumption) ltac:(assumption) ltac:(assumption)) as (n2 & E2).
    exists (S (Nat.max n1 n2)). rewrite pelements_S. unfold ebody.
    rewrite (fuel_mono n1 (Nat.max n1 n2) _ _ ltac:(lia) E1).
    change (items_l level (y :: l)) with (44 :: newline (S level) ++ enc (S level) y ++ items_l level l).
    cbn [app]. rewrite skip_ws_nows by reflexivity. change (44 =? 93) with false. change (44 =? 44) with true. cbn match.
    rewrite <- !app_assoc. rewrite (skip_enc y level) by assumption.
    rewrite (fuel_mono_e n2 (Nat.max n1 n2) _ _ ltac:(lia) E2). reflexivity.
Qed.

Lemma member_head level k x d t : (enc_str k ++ [58; 32] ++ enc (S level) x ++ items_d level d ++ t) =
  34 :: (enc_chars k ++ 34 :: 58 :: 32 :: enc (S level) x ++ items_d level d ++ t).
Proof. unfold enc_str. cbn [app]. rewrite <- app_assoc. reflexivity. Qed.

Lemma skip_32 t : skip_ws (32 :: t) = skip_ws t. Proof. reflexivity. Qed.

Lemma members_read level d : forall k x t, wf_chars k -> canonical x -> reads_back x ->
  Forall (fun p => wf_chars (fst p) /\ canonical (snd p)) d -> Forall (fun p => reads_back (snd p)) d ->
  exists n, pmembers n (enc_str k ++ [58; 32] ++ enc (S level) x ++ items_d level d ++ newline level ++ 125 :: t) = Some ((k, x) :: d, t).
Proof.
  induction d as [|[k' y] d IH]; intros k x t Wk Cx Rx Cd Rd.
  - destruct (Rx (S level) (newline level ++ 125 :: t) (or_introl (starts_delim_items_d level [] (125 :: t)))) as (n & E).
    exists (S n). rewrite (member_head level k x []), pmembers_S. unfold mbody. change (34 =? 34) with true. cbn match.
    rewrite scan_enc_chars by exact Wk. rewrite skip_ws_nows by reflexivity. change (58 =? 58) with true. cbn match. rewrite skip_32.
    destruct (enc_head x (S level) Cx) as (c & w & EH & W & _).
    replace (skip_ws (enc (S level) x ++ items_d level [] ++ newline level ++ 125 :: t)) with (enc (S level) x ++ newline level ++ 125 :: t)
      by (rewrite EH; cbn [app items_d]; rewrite skip_ws_nows by exact W; reflexivity).
    rewrite E, skip_newline, skip_ws_nows by reflexivity. reflexivity.
  - inversion Cd as [|? ? [Wk' Cy] Cd']; inversion Rd as [|? ? Ry Rd']; subst. cbn [fst snd] in *.
    destruct (Rx (S level) (items_d level ((k', y) :: d) ++ newline level ++ 125 :: t) (or_introl (starts_delim_items_d level ((k', y) :: d) (125 :: t)))) as (n1 & E1).
    destruct (IH k' y t Wk' Cy Ry Cd' Rd') as (n2 & E2).
    exists (S (Nat.max n1 n2)). rewrite member_head, pmembers_S. unfold mbody. change (34 =? 34) with true. cbn match.
    rewrite scan_enc_chars by exact Wk. rewrite skip_ws_nows by reflexivity. change (58 =? 58) with true. cbn match. rewrite skip_32.
    destruct (enc_head x (S level) Cx) as (c & w & EH & W & _).
    replace (skip_ws (enc (S level) x ++ items_d level ((k', y) :: d) ++ newline level ++ 125 :: t))
      with (enc (S level) x ++ items_d level ((k', y) :: d) ++ newline level ++ 125 :: t)
      by (rewrite EH; cbn [app]; rewrite skip_ws_nows by exact W; reflexivity).
    rewrite (fuel_mono n1 (Nat.max n1 n2) _ _ ltac:(lia) E1).
    change (items_d level ((k', y) :: d)) with (44 :: newline (S level) ++ enc_str k' ++ [58; 32] ++ enc (S level) y ++ items_d level d).
    cbn [app]. rewrite skip_ws_nows by reflexivity. change (44 =? 125) with false. change (44 =? 44) with true. cbn match.
    rewrite <- !app_assoc. rewrite skip_newline.
    replace (skip_ws (enc_str k' ++ (58 :: 32 :: enc (S level) y ++ items_d level d) ++ newline level ++ 125 :: t))
      with (enc_str k' ++ [58; 32] ++ enc (S level) y ++ items_d level d ++ newline level ++ 125 :: t).
    + rewrite (fuel_mono_m n2 (Nat.max n1 n2) _ _ ltac:(lia) E2). reflexivity.
    + unfold enc_str at 2. cbn [app]. rewrite skip_ws_nows by reflexivity. unfold enc_str. cbn [app]. rewrite <- !app_assoc. reflexivity.
Qed.

Lemma mkdict_acc ps : forall acc, NoDup (map fst (acc ++ ps)) ->
  fold_left (fun d (p : text * json) => dset text_eqb (fst p) (snd p) d) ps acc = acc ++ ps.
Proof.
  induction ps as [|[k v] ps IH]; intros acc N; [rewrite app_nil_r; reflexivity|]. cbn [fold_left fst snd].
  rewrite (dset_keys_new text_eqb text_eqb_eq).
  - rewrite IH; rewrite <- app_assoc; [reflexivity|exact N].
  - rewrite map_app in N. cbn [map fst] in N. apply NoDup_remove_2 in N. intro HI. apply N. apply in_or_app. left. exact HI.
Qed.
Lemma mkdict_NoDup ps : NoDup (map fst ps) -> mkdict ps = ps.
Proof. intro N. apply (mkdict_acc ps []). exact N. Qed.

Lemma all_read_back v : canonical v -> reads_back v.
Proof.
  induction v as [|b|z|l|s|l IH|d IH] using json_ind'; intro C.
  - intros level t [T|O]; [|cbn in O; lia]. exists 1%nat. apply scalar_reads; [right; left; reflexivity|exact T].
  - intros level t [T|O]; [|destruct b; cbn in O; lia]. exists 1%nat. destruct b; (apply scalar_reads; [|exact T]); right; cbn; tauto.
  - intros level t [T|O].
    + exists 1%nat. apply scalar_reads; [apply enc_int_ok|exact T].
    + exfalso. destruct (scalar_text_head _ _ (enc_int_ok z)) as (c & w & E & H). cbn [enc] in O. rewrite E in O. cbn in O. lia.
  - intros level t [T|O].
    + exists 1%nat. apply scalar_reads; [exact C|exact T].
    + exfalso. destruct (scalar_text_head _ _ C) as (c & w & E & H). cbn [enc] in O. rewrite E in O. cbn in O. lia.
  - intros level t _. exists 1%nat. cbn [enc]. unfold enc_str. cbn [app pvalue]. change (34 =? 34) with true. cbn match.
    rewrite <- app_assoc. cbn [app]. rewrite scan_enc_chars by exact C. reflexivity.
  - intros level t _. apply canonical_list in C. destruct l as [|x l]; [exists 1%nat; reflexivity|].
    inversion C as [|? ? Cx Cl]; inversion IH as [|? ? Rx Rl]; subst.
    assert (Rl' : Forall reads_back l). { apply Forall_forall. intros y HI. rewrite Forall_forall in Rl, Cl. apply Rl; [exact HI|apply Cl; exact HI]. }
    destruct (elements_read level l x t Cx (Rx Cx) Cl Rl') as (n & E). exists (S n).
    rewrite enc_list. cbn [app pvalue]. change (91 =? 34) with false. change (91 =? 123) with false. change (91 =? 91) with true. cbn match.
    rewrite <- !app_assoc. rewrite (skip_enc x level) by exact Cx. cbn [app].
    destruct (enc_head x (S level) Cx) as (c & w & EH & W & N93 & _). rewrite EH in *. cbn [app] in *.
    replace (c =? 93) with false by lia. rewrite E. reflexivity.
  - intros level t _. apply canonical_obj in C as [ND Cd]. destruct d as [|[k x] d]; [exists 1%nat; reflexivity|].
    inversion Cd as [|? ? [Wk Cx] Cd']; inversion IH as [|? ? Rx Rd]; subst. cbn [fst snd] in *.
    assert (Rd' : Forall (fun p => reads_back (snd p)) d).
    { apply Forall_forall. intros y HI. rewrite Forall_forall in Rd, Cd'. apply Rd; [exact HI|apply Cd'; exact HI]. }
    destruct (members_read level d k x t Wk Cx (Rx Cx) Cd' Rd') as (n & E). exists (S n).
    rewrite enc_obj. cbn [app pvalue]. change (123 =? 34) with false. change (123 =? 123) with true. cbn match.
    rewrite <- !app_assoc. rewrite skip_newline.
    match goal with |- context [skip_ws ?T] => replace (skip_ws T) with (enc_str k ++ [58; 32] ++ enc (S level) x ++ items_d level d ++ newline level ++ 125 :: t) end.
    + rewrite E. rewrite mkdict_NoDup by exact ND. unfold enc_str. cbn [app]. reflexivity.
    + unfold enc_str. cbn [app]. rewrite skip_ws_nows by reflexivity. rewrite <- !app_assoc. reflexivity.
Qed.

Lemma loads_of_parse s v r n : skip_ws s = s -> pvalue n s = Some (v, r) -> loads s = match skip_ws r with [] => Ok v | _ => Err JSONDecodeError end.
Proof.
  intros W H. unfold loads. rewrite W. assert (E : pvalue (2 * List.length s + 2) s = Some (v, r)).
  { rewrite fuel_irrelevant by lia. destruct (Nat.le_ge_cases n (2 * List.length s + 1)) as [L|G].
    - apply (fuel_mono n); [exact L|exact H].
    - rewrite (fuel_irrelevant s n G) in H. exact H. }
  rewrite E. reflexivity.
Qed.

Theorem loads_dumps v : canonical v -> loads (dumps v) = Ok v.
Proof.
  intro C. unfold dumps.
  destruct (enc_head v 0 C) as (c & w & EH & W & _).
  assert (SK : skip_ws (enc 0 v) = enc 0 v) by (rewrite EH; apply skip_ws_nows; exact W).
  (* read it followed by a blank, then compare fuel *)
  destruct (all_read_back v C 0%nat [32] (or_introl eq_refl)) as (n & E).
  assert (D : exists m, pvalue m (enc 0 v) = Some (v, [])).
  { destruct v as [|b|z|l|s|l|d].
    - exists 1%nat. reflexivity.
    - exists 1%nat. destruct b; reflexivity.
    - exists 1%nat. cbn [enc] in *. clear E. pose proof (enc_int_ok z) as T. revert EH SK T. generalize (enc_int z). intros i EH SK T.
      destruct T as [(i' & f & e & W1 & W2 & W3 & -> & V)|HI].
      + destruct (f ++ e) eqn:FE; [|discriminate]. apply app_eq_nil in FE as [-> ->]. rewrite !app_nil_r in *.
        injection V as ->. destruct (scalar_text_head _ _ (or_introl (ex_intro _ i' (ex_intro _ [] (ex_intro _ [] (conj W1 (conj W2 (conj W3 (conj eq_refl eq_refl)))))))))
          as (c' & w' & E' & H). rewrite !app_nil_r in E'. rewrite E'. cbn [pvalue]. replace (c' =? 34) with false by lia.
        replace (c' =? 123) with false by lia. replace (c' =? 91) with false by lia. rewrite <- E'.
        unfold scan_scalar, scan_number. pose proof (scan_int_complete i' [] W1 I) as SI. rewrite app_nil_r in SI. rewrite SI. reflexivity.
      + cbn in HI. repeat (destruct HI as [HI|HI]; [discriminate HI|]). contradiction.
    - exists 1%nat. cbn [enc] in *. clear E. cbn [canonical] in C. destruct C as [(i' & f & e & W1 & W2 & W3 & L & V)|HI].
      + destruct (scalar_text_head (JFloat l) l) as (c' & w' & E' & H).
        { left. exists i', f, e. auto. }
        destruct (f ++ e) as [|y fe] eqn:FE; [discriminate|].
        rewrite E'. cbn [pvalue]. replace (c' =? 34) with false by lia.
        replace (c' =? 123) with false by lia. replace (c' =? 91) with false by lia. rewrite <- E'. rewrite L.
        unfold scan_scalar, scan_number. rewrite <- FE, scan_int_complete; [|exact W1|].
        * rewrite scan_frac_complete; [|exact W2|].
          -- pose proof (scan_exp_complete e [] W3 I) as SE. rewrite app_nil_r in SE. rewrite SE, FE. reflexivity.
          -- destruct W3 as [->|(x & ds & X & _ & E3)]; [exact I|].
             destruct E3 as [->|(g & _ & ->)]; cbn; (split; [unfold is_digit; lia|lia]).
        * destruct W2 as [->|(ds & -> & _)]; [|reflexivity]. cbn [app].
          destruct W3 as [->|(x & ds & X & _ & E3)]; [exact I|].
          destruct E3 as [->|(g & _ & ->)]; cbn; unfold is_digit; lia.
      + cbn in HI. repeat (destruct HI as [HI|HI]; [try discriminate HI; injection HI as <-; reflexivity|]). contradiction.
    - assert (O : opens (enc 0 (JStr s))) by (cbn; tauto).
      destruct (all_read_back _ C 0%nat [] (or_intror O)) as (m & Em). rewrite app_nil_r in Em. eauto.
    - assert (O : opens (enc 0 (JList l))) by (destruct l; cbn; tauto).
      destruct (all_read_back _ C 0%nat [] (or_intror O)) as (m & Em). rewrite app_nil_r in Em. eauto.
    - assert (O : opens (enc 0 (JObj d))) by (destruct d as [|[? ?] ?]; cbn; tauto).
      destruct (all_read_back _ C 0%nat [] (or_intror O)) as (m & Em). rewrite app_nil_r in Em. eauto. }
  destruct D as (m & Em). rewrite (loads_of_parse _ _ _ _ SK Em). reflexivity.
Qed.

(** ** A truncated settings file cannot be read *)
Theorem loads_truncated d p q : canonical (JObj d) -> dumps (JObj d) = p ++ q -> q <> [] -> loads p = Err JSONDecodeError.
Proof.
  intros C E NQ. unfold dumps in E.
  assert (O : opens (enc 0 (JObj d))) by (destruct d as [|[? ?] ?]; cbn; tauto).
  destruct (all_read_back _ C 0%nat [] (or_intror O)) as (m & Em). rewrite app_nil_r in Em.
  destruct p as [|c p]; [reflexivity|].
  assert (HC : c = 123) by (destruct d as [|[? ?] ?]; cbn in E; congruence). subst c.
  unfold loads. rewrite (skip_ws_nows 123 p) by reflexivity.
  destruct (pvalue _ (123 :: p)) as [[v r]|] eqn:P; [|reflexivity].
  destruct (skip_ws r) as [|c r'] eqn:SR; [|reflexivity]. exfalso.
  apply parse_ext with (q := q) in P; [|left; cbn; tauto]. rewrite <- E in P.
  pose proof (fuel_det _ _ _ _ _ P Em) as D. injection D as _ D. apply app_eq_nil in D as [_ D]. exact (NQ D).
Qed.

(** ** Reading yields canonical values *)
Lemma skip_ws_valid s : Forall valid_char s -> Forall valid_char (skip_ws s).
Proof. intro V. induction V as [|c s Vc V IH]; cbn [skip_ws]; [constructor|]. destruct (is_ws c); [exact IH|constructor; assumption]. Qed.

Lemma scan_scalar_canonical s v r : Forall valid_char s -> scan_scalar s = Some (v, r) -> canonical v /\ Forall valid_char r.
Proof.
  intros V H. apply scan_scalar_sound in H as (w & W & ->). split; [|apply Forall_app in V; tauto].
  destruct W as [(i & f & e & W1 & W2 & W3 & -> & ->)|HI].
  - destruct (f ++ e) as [|y fe] eqn:FE; [exact I|]. left. exists i, f, e. rewrite FE. repeat split; assumption.
  - pose proof HI as HI'. cbn in HI. repeat (destruct HI as [HI|HI]; [injection HI as <- <-; try exact I; right; exact HI'|]). contradiction.
Qed.

Lemma dset_in (k : text) (v : json) (d : list (text * json)) p : In p (dset text_eqb k v d) -> In p d \/ p = (k, v) \/ (snd p = v /\ In (fst p) (map fst d)).
Proof.
  induction d as [|[k' v'] d IH]; cbn [dset].
  - cbn. intros [H|[]]. right. left. symmetry. exact H.
  - destruct (text_eqb k k').
    + cbn. intros [H|H]; [|left; right; exact H]. subst p. right. right. cbn. auto.
    + cbn. intros [H|H]; [left; left; exact H|]. destruct (IH H) as [H'|[H'|[H1 H2]]]; [tauto|tauto|]. right. right. auto.
Qed.

Lemma mkdict_canonical ps : Forall (fun p => wf_chars (fst p) /\ canonical (snd p)) ps -> canonical_dict (mkdict ps).
Proof.
  intro F. unfold mkdict. assert (A : canonical_dict []) by (split; constructor). revert A. generalize (@nil (text * json)).
  induction F as [|[k v] ps [Wk Cv] F IH]; intros acc A; [exact A|]. cbn [fold_left fst snd] in *. apply IH.
  destruct A as [N A]. split; [apply (dset_NoDup text_eqb text_eqb_eq); exact N|].
  apply Forall_forall. intros p HI. rewrite Forall_forall in A. destruct (dset_in k v acc p HI) as [H|[->|[H1 H2]]].
  - exact (A p H).
  - cbn. auto.
  - rewrite H1. split; [|exact Cv]. apply in_map_iff in H2 as (p' & E & HI'). rewrite <- E. exact (proj1 (A p' HI')).
Qed.

Lemma parse_canonical n :
  (forall s v r, Forall valid_char s -> pvalue n s = Some (v, r) -> canonical v /\ Forall valid_char r) /\
  (forall s ps r, Forall valid_char s -> pmembers n s = Some (ps, r) ->
     Forall (fun p => wf_chars (fst p) /\ canonical (snd p)) ps /\ Forall valid_char r) /\
  (forall s l r, Forall valid_char s -> pelements n s = Some (l, r) -> Forall canonical l /\ Forall valid_char r).
Proof.
  induction n as [|n (IHv & IHm & IHe)]; [repeat split; discriminate|].
  split; [|split]; intros s v r V H.
  - cbn [pvalue] in H. destruct s as [|c s]; [discriminate|]. pose proof (Forall_inv_tail V) as Vs.
    destruct (c =? 34).
    { destruct (scanstring s) as [[x r']|] eqn:S; [|discriminate]. injection H as <- <-. exact (scanstring_wf _ _ _ Vs S). }
    pose proof (skip_ws_valid s Vs) as Vw.
    destruct (c =? 123).
    { destruct (skip_ws s) as [|c2 s2] eqn:W; [discriminate|].
      destruct (c2 =? 125); [injection H as <- <-; split; [apply canonical_obj; split; constructor|exact (Forall_inv_tail Vw)]|].
      destruct (pmembers n (c2 :: s2)) as [[ps r']|] eqn:M; [|discriminate]. injection H as <- <-. destruct (IHm _ _ _ Vw M) as [H1 H2].
      split; [|exact H2]. apply canonical_obj, mkdict_canonical. exact H1. }
    destruct (c =? 91).
    { destruct (skip_ws s) as [|c2 s2] eqn:W; [discriminate|].
      destruct (c2 =? 93); [injection H as <- <-; split; [apply canonical_list; constructor|exact (Forall_inv_tail Vw)]|].
      destruct (pelements n (c2 :: s2)) as [[ps r']|] eqn:M; [|discriminate]. injection H as <- <-. destruct (IHe _ _ _ Vw M) as [H1 H2].
      split; [|exact H2]. apply canonical_list. exact H1. }
    exact (scan_scalar_canonical _ _ _ V H).
  - cbn [pmembers] in H. destruct s as [|q s]; [discriminate|]. destruct (q =? 34); [|discriminate]. pose proof (Forall_inv_tail V) as Vs.
    destruct (scanstring s) as [[k r0]|] eqn:S; [|discriminate]. destruct (scanstring_wf _ _ _ Vs S) as [Wk V0].
    pose proof (skip_ws_valid _ V0) as V1. destruct (skip_ws r0) as [|col r1]; [discriminate|]. destruct (col =? 58); [|discriminate].
    pose proof (skip_ws_valid _ (Forall_inv_tail V1)) as V2. destruct (pvalue n (skip_ws r1)) as [[x r2]|] eqn:PV; [|discriminate].
    destruct (IHv _ _ _ V2 PV) as [Cx V3]. pose proof (skip_ws_valid _ V3) as V4.
    destruct (skip_ws r2) as [|c r3]; [discriminate|].
    destruct (c =? 125); [injection H as <- <-; split; [constructor; [split; assumption|constructor]|exact (Forall_inv_tail V4)]|].
    destruct (c =? 44); [|discriminate].
    pose proof (skip_ws_valid _ (Forall_inv_tail V4)) as V5. destruct (pmembers n (skip_ws r3)) as [[ps r4]|] eqn:M; [|discriminate]. injection H as <- <-.
    destruct (IHm _ _ _ V5 M) as [H1 H2]. split; [constructor; [split; assumption|exact H1]|exact H2].
  - cbn [pelements] in H. destruct (pvalue n s) as [[x r1]|] eqn:PV; [|discriminate]. destruct (IHv _ _ _ V PV) as [Cx V3].
    pose proof (skip_ws_valid _ V3) as V4. destruct (skip_ws r1) as [|c r2]; [discriminate|].
    destruct (c =? 93); [injection H as <- <-; split; [constructor; [assumption|constructor]|exact (Forall_inv_tail V4)]|].
    destruct (c =? 44); [|discriminate].
    pose proof (skip_ws_valid _ (Forall_inv_tail V4)) as V5. destruct (pelements n (skip_ws r2)) as [[l r3]|] eqn:M; [|discriminate]. injection H as <- <-.
    destruct (IHe _ _ _ V5 M) as [H1 H2]. split; [constructor; assumption|exact H2].
Qed.

Theorem loads_canonical s v : Forall valid_char s -> loads s = Ok v -> canonical v.
Proof.
  intros V H. unfold loads in H. destruct (pvalue _ (skip_ws s)) as [[x r]|] eqn:P; [|discriminate].
  destruct (skip_ws r); [|discriminate]. injection H as <-.
  exact (proj1 (proj1 (parse_canonical _) _ _ _ (skip_ws_valid s V) P)).
Qed.

(** ** Written text is plain ASCII *)
Lemma ascii_valid c : c < 128 -> valid_char c.
Proof. intro H. unfold valid_char, is_high, is_low. lia. Qed.
Lemma hexd_small n : n < 16 -> hexd n < 128.
Proof. intro H. unfold hexd. destruct (n <? 10) eqn:E; lia. Qed.
Lemma uesc_valid u : u < 65536 -> Forall valid_char (uesc u).
Proof.
  intro H. unfold uesc, hex4. repeat (constructor; [apply ascii_valid; first [lia | apply hexd_small; lia]|]). constructor.
Qed.
Lemma enc_char_valid c : c < 1114112 -> Forall valid_char (enc_char c).
Proof.
  intro H. unfold enc_char.
  repeat match goal with |- context [if ?b then _ else _] => destruct b eqn:? end;
    try (repeat (constructor; [apply ascii_valid; lia|]); exact (Forall_nil _)).
  - apply uesc_valid. lia.
  - apply Forall_app. split; apply uesc_valid; lia.
Qed.
Lemma enc_str_valid s : wf_chars s -> Forall valid_char (enc_str s).
Proof.
  intro W. unfold enc_str. constructor; [apply ascii_valid; lia|]. apply Forall_app. split.
  - unfold enc_chars. induction s as [|c s IH]; [constructor|]. destruct W as (W1 & _ & W3). cbn [flat_map].
    apply Forall_app. split; [apply enc_char_valid; exact W1|exact (IH W3)].
  - constructor; [apply ascii_valid; lia|constructor].
Qed.
Lemma digit_valid c : is_digit c = true -> valid_char c.
Proof. unfold is_digit. intro H. apply ascii_valid. lia. Qed.
Lemma all_digits_valid ds : all_digits ds -> Forall valid_char ds.
Proof. intros [_ F]. eapply Forall_impl; [exact digit_valid|exact F]. Qed.
Lemma wf_nat_valid i : wf_nat i -> Forall valid_char i.
Proof. intros [->|[A _]]; [constructor; [apply ascii_valid; lia|constructor]|apply all_digits_valid; exact A]. Qed.
Lemma scalar_valid v w : scalar_text v w -> Forall valid_char w.
Proof.
  intros [(i & f & e & W1 & W2 & W3 & -> & _)|HI].
  - repeat (apply Forall_app; split).
    + destruct W1 as [W|(ds & -> & W)]; [apply wf_nat_valid; exact W|constructor; [apply ascii_valid; lia|apply wf_nat_valid; exact W]].
    + destruct W2 as [->|(ds & -> & W)]; [constructor|constructor; [apply ascii_valid; lia|apply all_digits_valid; exact W]].
    + destruct W3 as [->|(c & ds & C & W & E)]; [constructor|]. apply all_digits_valid in W.
      destruct E as [->|(g & G & ->)]; repeat (constructor; [apply ascii_valid; lia|]); exact W.
  - cbn in HI. repeat (destruct HI as [HI|HI]; [injection HI as <- <-; cbn; repeat (constructor; [apply ascii_valid; lia|]); constructor|]). contradiction.
Qed.
Lemma newline_valid k : Forall valid_char (newline k).
Proof.
  unfold newline. constructor; [apply ascii_valid; lia|]. apply Forall_forall. intros c HI. apply repeat_spec in HI. subst c. apply ascii_valid. lia.
Qed.

Theorem enc_valid v : canonical v -> forall level, Forall valid_char (enc level v).
Proof.
  induction v as [|b|z|l|s|l IH|d IH] using json_ind'; intros C level.
  - apply (scalar_valid JNull). right. cbn. tauto.
  - destruct b; [apply (scalar_valid (JBool true))|apply (scalar_valid (JBool false))]; right; cbn; tauto.
  - apply (scalar_valid (JInt z)), enc_int_ok.
  - exact (scalar_valid _ _ C).
  - apply enc_str_valid. exact C.
  - apply canonical_list in C. destruct l as [|x l]; [repeat (constructor; [apply ascii_valid; lia|]); constructor|].
    rewrite enc_list. inversion C as [|? ? Cx Cl]; inversion IH as [|? ? Rx Rl]; subst. constructor; [apply ascii_valid; lia|].
    apply Forall_app. split; [apply newline_valid|]. apply Forall_app. split; [apply Rx; exact Cx|].
    apply Forall_app. split; [|apply Forall_app; split; [apply newline_valid|constructor; [apply ascii_valid; lia|constructor]]].
    clear Cx Rx C IH. induction l as [|y l IHl]; [constructor|]. inversion Cl; inversion Rl; subst.
    cbn [items_l]. constructor; [apply ascii_valid; lia|]. apply Forall_app. split; [apply newline_valid|].
    apply Forall_app. split; [auto|]. apply IHl; assumption.
  - apply canonical_obj in C as [_ C]. destruct d as [|[k x] d]; [repeat (constructor; [apply ascii_valid; lia|]); constructor|].
    rewrite enc_obj. inversion C as [|? ? [Wk Cx] Cl]; inversion IH as [|? ? Rx Rl]; subst. cbn [fst snd] in *. constructor; [apply ascii_valid; lia|].
    apply Forall_app. split; [apply newline_valid|]. apply Forall_app. split; [apply enc_str_valid; exact Wk|].
    apply Forall_app. split; [repeat (constructor; [apply ascii_valid; lia|]); constructor|].
    apply Forall_app. split; [apply Rx; exact Cx|].
    apply Forall_app. split; [|apply Forall_app; split; [apply newline_valid|constructor; [apply ascii_valid; lia|constructor]]].
    clear Cx Rx C IH Wk. induction d as [|[k' y] d IHl]; [constructor|]. inversion Cl as [|? ? [Wk' Cy] Cl']; inversion Rl as [|? ? Ry Rl']; subst.
    cbn [fst snd] in *. cbn [items_d]. constructor; [apply ascii_valid; lia|]. apply Forall_app. split; [apply newline_valid|].
    apply Forall_app. split; [apply enc_str_valid; exact Wk'|]. cbn [app]. repeat (constructor; [apply ascii_valid; lia|]).
    apply Forall_app. split; [auto|]. apply IHl; assumption.
Qed.
