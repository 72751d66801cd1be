(** * The JSON documents a settings file may consist of, and what they mean.

    RFC 8259 grammar with the extensions of Python's json module (NaN, Infinity, -Infinity; lone
    surrogate escapes; later duplicates of a name replace the earlier value), written without any
    of the functions of Json_Model.v (only its types [text] and [json] and the ASCII literal
    notation [txt]). *)
From Verif Require Import PyBase Json_Model.
Open Scope N_scope.

(** Blank space: space, tab, line feed, carriage return. *)
Definition blank (c : N) : Prop := c = 32 \/ c = 9 \/ c = 10 \/ c = 13.
Definition blanks (b : text) : Prop := Forall blank b.

(** ** Strings *)
Inductive hexdigit : N -> N -> Prop :=
| hex_09 d : d <= 9 -> hexdigit (48 + d) d                              (* 0-9 *)
| hex_af d : d <= 5 -> hexdigit (97 + d) (10 + d)                       (* a-f *)
| hex_AF d : d <= 5 -> hexdigit (65 + d) (10 + d).                      (* A-F *)
Definition quad (a b c d u : N) : Prop :=
  exists w x y z, hexdigit a w /\ hexdigit b x /\ hexdigit c y /\ hexdigit d z /\ u = 4096 * w + 256 * x + 16 * y + z.
Definition high (u : N) : Prop := 55296 <= u <= 56319.                  (* D800-DBFF *)
Definition low (u : N) : Prop := 56320 <= u <= 57343.                   (* DC00-DFFF *)
Definition low_follows (s : text) : Prop :=
  exists a b c d u s', s = 92 :: 117 :: a :: b :: c :: d :: s' /\ quad a b c d u /\ low u.
(** The two-character escapes: backslash and this character stand for that character. *)
Inductive short : N -> N -> Prop :=
| sh_quote : short 34 34 | sh_backslash : short 92 92 | sh_slash : short 47 47
| sh_b : short 98 8 | sh_f : short 102 12 | sh_n : short 110 10 | sh_r : short 114 13 | sh_t : short 116 9.
(** [chars s x]: the source characters [s] between the quotes denote the string [x]. *)
Inductive chars : text -> text -> Prop :=
| ch_end : chars [] []
| ch_plain c s x : 32 <= c -> c <> 34 -> c <> 92 -> chars s x -> chars (c :: s) (c :: x)
| ch_short e c s x : short e c -> chars s x -> chars (92 :: e :: s) (c :: x)
| ch_u a b c d u s x : quad a b c d u -> ~ (high u /\ low_follows s) -> chars s x ->
    chars (92 :: 117 :: a :: b :: c :: d :: s) (u :: x)
| ch_pair a b c d hi a' b' c' d' lo s x : quad a b c d hi -> high hi -> quad a' b' c' d' lo -> low lo -> chars s x ->
    chars (92 :: 117 :: a :: b :: c :: d :: 92 :: 117 :: a' :: b' :: c' :: d' :: s)
          (65536 + (hi - 55296) * 1024 + (lo - 56320) :: x).

(** ** Numbers *)
Inductive numeral : text -> N -> Prop :=
| num_one d : d <= 9 -> numeral [48 + d] d
| num_more ds n d : numeral ds n -> d <= 9 -> numeral (ds ++ [48 + d]) (10 * n + d).
(** No leading zero. *)
Definition whole (ds : text) (n : N) : Prop := numeral ds n /\ (ds = [48] \/ hd 0 ds <> 48).
Definition fraction (f : text) : Prop := exists ds n, f = 46 :: ds /\ numeral ds n.
Definition exponent (e : text) : Prop :=
  exists c g ds n, e = c :: g ++ ds /\ (c = 101 \/ c = 69) /\ (g = [] \/ g = [43] \/ g = [45]) /\ numeral ds n.
Inductive number : json -> text -> Prop :=
| n_nat ds n : whole ds n -> number (JInt (Z.of_N n)) ds
| n_neg ds n : whole ds n -> number (JInt (- Z.of_N n)) (45 :: ds)
| n_float m ds n f e : (m = [] \/ m = [45]) -> whole ds n -> (f = [] \/ fraction f) -> (e = [] \/ exponent e) ->
    (f <> [] \/ e <> []) -> number (JFloat (m ++ ds ++ f ++ e)) (m ++ ds ++ f ++ e).

(** ** Dictionaries: the pairs as written, and the dictionary they make *)
Inductive dict_of : list (text * json) -> list (text * json) -> Prop :=
| d_nil : dict_of [] []
| d_new ps d k v : dict_of ps d -> ~ In k (map fst d) -> dict_of (ps ++ [(k, v)]) (d ++ [(k, v)])
| d_again ps d1 k v0 d2 v : dict_of ps (d1 ++ (k, v0) :: d2) -> ~ In k (map fst d1) ->
    dict_of (ps ++ [(k, v)]) (d1 ++ (k, v) :: d2).

(** ** Values *)
Inductive value : json -> text -> Prop :=
| v_null : value JNull (txt "null")
| v_true : value (JBool true) (txt "true")
| v_false : value (JBool false) (txt "false")
| v_nan : value (JFloat (txt "NaN")) (txt "NaN")
| v_inf : value (JFloat (txt "Infinity")) (txt "Infinity")
| v_ninf : value (JFloat (txt "-Infinity")) (txt "-Infinity")
| v_number v u : number v u -> value v u
| v_string s x : chars s x -> value (JStr x) (34 :: s ++ [34])
| v_list0 b : blanks b -> value (JList []) (91 :: b ++ [93])
| v_list l u : elements l u -> value (JList l) (91 :: u ++ [93])
| v_obj0 b : blanks b -> value (JObj []) (123 :: b ++ [125])
| v_obj ps d u : members ps u -> dict_of ps d -> value (JObj d) (123 :: u ++ [125])
with elements : list json -> text -> Prop :=
| e_one b v u b' : blanks b -> value v u -> blanks b' -> elements [v] (b ++ u ++ b')
| e_more b v u b' l w : blanks b -> value v u -> blanks b' -> elements l w -> elements (v :: l) (b ++ u ++ b' ++ 44 :: w)
with members : list (text * json) -> text -> Prop :=
| m_one k v u : member k v u -> members [(k, v)] u
| m_more k v u ps w : member k v u -> members ps w -> members ((k, v) :: ps) (u ++ 44 :: w)
with member : text -> json -> text -> Prop :=
| mb b s k b1 b2 v u b' : blanks b -> chars s k -> blanks b1 -> blanks b2 -> value v u -> blanks b' ->
    member k v (b ++ 34 :: s ++ 34 :: b1 ++ 58 :: b2 ++ u ++ b').

(** A whole file. *)
Definition document (v : json) (t : text) : Prop :=
  exists b u b', blanks b /\ value v u /\ blanks b' /\ t = b ++ u ++ b'.

(** The characters of a written file: line feed and printable ASCII. *)
Definition plain (c : N) : Prop := c = 10 \/ 32 <= c <= 126.

(** Two files (None: missing) with the same document, whatever the layout. *)
Definition same_document (f f' : option text) : Prop :=
  match f, f' with
  | None, None => True
  | Some t, Some t' => exists v, document v t /\ document v t'
  | _, _ => False
  end.
