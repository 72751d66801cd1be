(** * C81: the texts settings files may consist of *)
From Verif Require Import PyBase Json_Model JsonText_Spec JsonText_Proofs JsonText_Proofs2 Settings_Model Settings_Spec Settings_Proofs Settings_Proofs3.
Open Scope list_scope.

(** Reading succeeds exactly on the documents of the grammar, with the value the grammar gives; every other text is
    a JSONDecodeError. *)
Theorem C81_reading : forall t v, loads t = Ok v <-> document v t.
Proof. exact loads_document. Qed.
Print Assumptions C81_reading.
Theorem C81_rejection : forall t, loads t = Err JSONDecodeError <-> forall v, ~ document v t.
Proof. exact loads_rejects. Qed.
Print Assumptions C81_rejection.
(** No text has two meanings. *)
Theorem C81_unambiguous : forall t v v', document v t -> document v' t -> v = v'.
Proof. exact document_unique. Qed.
Print Assumptions C81_unambiguous.

(** Only the documents count, not their layout: a service created from re-formatted files is the same, ... *)
Theorem C81_layout_read : forall fs fs', same_document (default_file fs) (default_file fs') -> same_document (custom_file fs) (custom_file fs') ->
  settings_init fs = settings_init fs'.
Proof. exact same_init. Qed.
Print Assumptions C81_layout_read.
(** ... and so is what a setter makes of them, to the letter. *)
Theorem C81_layout_set : forall k v s fs fs', same_document (custom_file fs) (custom_file fs') ->
  let '(s1, g1, r1) := set_property k v s fs in let '(s2, g2, r2) := set_property k v s fs' in
  s1 = s2 /\ r1 = r2 /\ (r1 = Ok tt -> custom_file g1 = custom_file g2) /\ (r1 <> Ok tt -> g1 = fs /\ g2 = fs').
Proof. exact same_set. Qed.
Print Assumptions C81_layout_set.

(** Whatever characters and layout the file had, what a setter writes is a document in printable ASCII. *)
Theorem C81_written : forall k v s fs s' fs', text_ok (custom_file fs) -> set_property k v s fs = (s', fs', Ok tt) ->
  exists t d, custom_file fs' = Some t /\ document (JObj d) t /\ Forall plain t.
Proof. exact written_plain. Qed.
Print Assumptions C81_written.

(** A file with nested values, escapes, a surrogate pair, a duplicate name and blanks, in two layouts. *)
Definition dq : string := String (Ascii.ascii_of_nat 34) EmptyString.
Definition bs : string := String (Ascii.ascii_of_nat 92) EmptyString.
Definition elaborate : string := (" { " ++ dq ++ "verbose" ++ dq ++ " : true , " ++ dq ++ "mine" ++ dq ++ ":[ 1,-2.50e+3 ,null, {} ," ++ dq ++ "a" ++ bs ++ "u00e9" ++ bs ++ "ud83d" ++ bs ++ "uDE00" ++ bs ++ "n" ++ bs ++ "/" ++ dq
  ++ "]," ++ dq ++ "verbose" ++ dq ++ ":false } ")%string.
Definition compact : string := ("{" ++ dq ++ bs ++ "u0076erbose" ++ dq ++ ":false," ++ dq ++ "mine" ++ dq ++ ":[1,-2.50e+3,null,{}," ++ dq ++ "a" ++ bs ++ "u00E9" ++ bs ++ "uD83D" ++ bs ++ "ude00" ++ bs ++ "u000a/" ++ dq
  ++ "]}")%string.
Definition meaning : json := JObj [(txt "verbose", JBool false);
  (txt "mine", JList [JInt 1; JFloat (txt "-2.50e+3"); JNull; JObj []; JStr [97; 233; 128512; 10; 47]%N])].
Example C81_nonvacuous : document meaning (txt elaborate) /\ document meaning (txt compact) /\ txt elaborate <> txt compact /\
  same_document (Some (txt elaborate)) (Some (txt compact)) /\
  (forall v, ~ document v (txt "{'verbose': true}")) /\ (forall v, ~ document v (txt "[1,]")) /\ (forall v, ~ document v (txt "01")) /\
  exists s', settings_init (mkFiles (Some shipped_default) (Some (txt compact))) = Ok s' /\ get KVerbose s' = VJson (JBool false).
Proof.
  assert (D1 : document meaning (txt elaborate)) by (apply loads_document; vm_compute; reflexivity).
  assert (D2 : document meaning (txt compact)) by (apply loads_document; vm_compute; reflexivity).
  split; [exact D1|]. split; [exact D2|]. split; [intro C; apply (f_equal (@List.length N)) in C; vm_compute in C; discriminate|].
  split; [exists meaning; split; assumption|].
  split; [apply loads_rejects; vm_compute; reflexivity|]. split; [apply loads_rejects; vm_compute; reflexivity|].
  split; [apply loads_rejects; vm_compute; reflexivity|]. eexists. split; [vm_compute; reflexivity|]. reflexivity.
Qed.
