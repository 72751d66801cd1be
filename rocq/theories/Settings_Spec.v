(** * Specification of the settings services (C51-C55) *)
From Verif Require Import PyBase Json_Model JsonText_Spec Settings_Model.
Open Scope list_scope.

Definition key_eqb (a b : key) : bool :=
  match a, b with
  | KContainer, KContainer | KAlgorithm, KAlgorithm | KEstimator, KEstimator | KLevel, KLevel
  | KVerbose, KVerbose | KPrecision, KPrecision => true
  | _, _ => false
  end.

(** Which values a setting accepts, and what is persisted (only two components of a precision). *)
Definition is_int (v : pyval) : bool := match v with VJson (JInt _) | VJson (JBool _) => true | _ => false end.
Definition accepted (k : key) (v : pyval) : option pyval :=
  match k, v with
  | KContainer, VContainer _ | KAlgorithm, VAlgorithm _ | KEstimator, VEstimator _ | KLevel, VLevel _ => Some v
  | KVerbose, VJson (JBool _) => Some v
  | KPrecision, VTuple (x :: y :: _) => if is_int x && is_int y then Some (VTuple [x; y]) else None
  | _, _ => None
  end.

(** Setter calls: the service object they are made on (in any state), the setting, the value. *)
Definition call : Type := service * key * pyval.
Definition files_after (h : list call) (fs : files) : files :=
  fold_left (fun fs c => snd (fst (set_property (snd (fst c)) (snd c) (fst (fst c)) fs))) h fs.
(** The value of the newest accepted call for k, calls newest first. *)
Fixpoint last_accepted (k : key) (h : list call) : option pyval :=
  match h with
  | [] => None
  | (_, k', v) :: h' =>
      if key_eqb k' k then match accepted k v with Some x => Some x | None => last_accepted k h' end
      else last_accepted k h'
  end.

(** Characters of a decoded UTF-8 file: no surrogates. *)
Definition unicode (c : N) : Prop := (c < 55296 \/ 57343 < c /\ c < 1114112)%N.
Definition text_ok (f : file) : Prop := match f with None => True | Some t => Forall unicode t end.
Definition files_ok (fs : files) : Prop := text_ok (default_file fs) /\ text_ok (custom_file fs).
(** The dictionary in a settings file (a missing file counts as an empty one). *)
Definition contents (f : file) (d : list (text * json)) : Prop :=
  match f with None => d = [] | Some t => document (JObj d) t end.
(** No JSON document at all. *)
Definition unreadable (t : text) : Prop := forall v, ~ document v t.

(** A call of a setter interrupted at any moment leaves the custom file as it was, or, if it had begun
    to write the text t, any beginning of t. *)
Definition after_crash (k : key) (v : pyval) (old new : file) : Prop :=
  new = old \/ exists t p q, createOrUpdate old k v = Ok t /\ t = p ++ q /\ new = Some p.

(** Two processes, interleaved: true lets the first one do a step. *)
Fixpoint interleave (k1 : key) (v1 : pyval) (k2 : key) (v2 : pyval) (sched : list bool) (s : pc * pc * file) : pc * pc * file :=
  match sched with
  | [] => s
  | b :: sched' =>
      let '(p1, p2, f) := s in
      interleave k1 v1 k2 v2 sched'
        (if b then let (p1', f') := update_step k1 v1 p1 f in (p1', p2, f')
         else let (p2', f') := update_step k2 v2 p2 f in (p1, p2', f'))
  end.
(** With an atomic write (truncating and writing in one step). *)
Fixpoint interleave_atomic (k1 : key) (v1 : pyval) (k2 : key) (v2 : pyval) (sched : list bool) (s : pc * pc * file) : pc * pc * file :=
  match sched with
  | [] => s
  | b :: sched' =>
      let '(p1, p2, f) := s in
      let go k v p f := match p with
                        | PRead t => (PDone, Some t)
                        | _ => update_step k v p f
                        end in
      interleave_atomic k1 v1 k2 v2 sched'
        (if b then let (p1', f') := go k1 v1 p1 f in (p1', p2, f')
         else let (p2', f') := go k2 v2 p2 f in (p1, p2', f'))
  end.
Definition finished (p : pc) : Prop := match p with PDone | PFailed _ => True | _ => False end.
(** d' results from d by making, of two single updates (which would give d1 and d2), at least one:
    each of the two settings has its old or its new entry, one has the new one, the rest is as before. *)
Definition merges (k1 k2 : key) (d d1 d2 d' : list (text * json)) : Prop :=
  let at_ k d := dget text_eqb (key_name k) d in
  (at_ k1 d' = at_ k1 d1 \/ at_ k1 d' = at_ k1 d) /\ (at_ k2 d' = at_ k2 d2 \/ at_ k2 d' = at_ k2 d) /\
  (at_ k1 d' = at_ k1 d1 \/ at_ k2 d' = at_ k2 d2) /\
  (forall name, name <> key_name k1 -> name <> key_name k2 -> dget text_eqb name d' = dget text_eqb name d).

(** Two accepted updates of different settings of a readable file f; alone they give t1 and t2. *)
Definition two_updates (f : file) (d : list (text * json)) (k1 : key) (v1 : pyval) (t1 : text) (d1 : list (text * json))
  (k2 : key) (v2 : pyval) (t2 : text) (d2 : list (text * json)) : Prop :=
  text_ok f /\ contents f d /\ k1 <> k2 /\
  createOrUpdate f k1 v1 = Ok t1 /\ contents (Some t1) d1 /\ createOrUpdate f k2 v2 = Ok t2 /\ contents (Some t2) d2.

(** Histories of settings and restarts (a new service object takes over), and the answer to asking for
    k afterwards; every value set is a valid one. *)
Inductive sop : Type := SSet (k : key) (v : pyval) | SRestart.
Definition valid_op (o : sop) : Prop := match o with SSet k v => accepted k v = Some v | SRestart => True end.
Definition sets (k : key) (o : sop) : Prop := match o with SSet k' _ => k' = k | SRestart => False end.
Fixpoint json_answer (h : list sop) (k : key) (s : service) (fs : files) : res pyval :=
  match h with
  | [] => Ok (get k s)
  | SSet k' v :: h' => let '(s', fs', r) := set_property k' v s fs in bind r (fun _ => json_answer h' k s' fs')
  | SRestart :: h' => bind (settings_init fs) (fun s' => json_answer h' k s' fs)
  end.
Fixpoint ram_answer (h : list sop) (k : key) (s : service) : pyval :=
  match h with
  | [] => get k s
  | SSet k' v :: h' => ram_answer h' k (ram_set k' v s)
  | SRestart :: h' => ram_answer h' k s                   (* nothing to read: the same object is used on *)
  end.
