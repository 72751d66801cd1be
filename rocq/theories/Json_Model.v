(** * JSON text: what json.load and json.dump(.., indent=4) of the standard library do with the
      settings files (used by settings/json_helper.py:71,85,99,124,150,164).

    Text is a list of Unicode code points.  Not modelled: the byte order mark, the interpreter's
    recursion limit, the limit on integer digits; a floating point literal stays the literal it was
    (Python would re-format it when writing). *)
From Verif Require Import PyBase.
From Coq Require Import Ascii.
Open Scope N_scope.

(** Strings as lists of code points: the contents of the files of json_helper.py:70-171. *)
Definition text : Type := list N.
(** String literals of the code, e.g. json_helper.py:46-50. *)
Definition txt (s : string) : text := map N_of_ascii (list_ascii_of_string s).
(** == of strings, e.g. json_helper.py:77, 100, 130. *)
Fixpoint text_eqb (a b : text) : bool :=
  match a, b with
  | [], [] => true
  | x :: a', y :: b' => (x =? y) && text_eqb a' b'
  | _, _ => false
  end.

(** What json.load (json_helper.py:71, 99, 124, 164) returns. *)
Inductive json : Type :=
| JNull
| JBool (b : bool)
| JInt (z : Z)
| JFloat (literal : text)
| JStr (s : text)
| JList (l : list json)
| JObj (d : list (text * json)).                 (* a dict, insertion order *)

(** ** Reading (json/decoder.py, json/scanner.py and their C versions) *)
Definition is_ws (c : N) : bool := (c =? 32) || (c =? 9) || (c =? 10) || (c =? 13).
(** White space, json.load (json_helper.py:71, 99, 124, 164). *)
Fixpoint skip_ws (s : text) : text :=
  match s with
  | c :: s' => if is_ws c then skip_ws s' else s
  | [] => []
  end.

(** A hexadecimal digit, json.load (json_helper.py:71, 99, 124, 164). *)
Definition unhex (c : N) : option N :=
  if (48 <=? c) && (c <=? 57) then Some (c - 48)
  else if (97 <=? c) && (c <=? 102) then Some (c - 87)
  else if (65 <=? c) && (c <=? 70) then Some (c - 55)
  else None.
(** Four hexadecimal digits, json.load (json_helper.py:71, 99, 124, 164). *)
Definition unhex4 (a b c d : N) : option N :=
  match unhex a, unhex b, unhex c, unhex d with
  | Some a, Some b, Some c, Some d => Some (((a * 16 + b) * 16 + c) * 16 + d)
  | _, _, _, _ => None
  end.
(** High surrogates, json.load (json_helper.py:71, 99, 124, 164). *)
Definition is_high (u : N) : bool := (55296 <=? u) && (u <=? 56319).    (* 0xD800-0xDBFF *)
(** Low surrogates, json.load (json_helper.py:71, 99, 124, 164). *)
Definition is_low (u : N) : bool := (56320 <=? u) && (u <=? 57343).     (* 0xDC00-0xDFFF *)
(** A surrogate pair, json.load (json_helper.py:71, 99, 124, 164). *)
Definition join (hi lo : N) : N := 65536 + ((hi - 55296) * 1024 + (lo - 56320)).
(** Escapes of one character, json.load (json_helper.py:71, 99, 124, 164). *)
Definition unescape (c : N) : option N :=
  if (c =? 34) || (c =? 92) || (c =? 47) then Some c
  else if c =? 98 then Some 8 else if c =? 102 then Some 12
  else if c =? 110 then Some 10 else if c =? 114 then Some 13
  else if c =? 116 then Some 9 else None.
(** Used by scanstring below, json.load (json_helper.py:71, 99, 124, 164). *)
Definition ocons (c : N) (r : option (text * text)) : option (text * text) :=
  match r with Some (x, rest) => Some (c :: x, rest) | None => None end.

(** A string after its opening quote: its value and the text after the closing quote. Code: json.load (json_helper.py:71, 99, 124, 164). *)
Fixpoint scanstring (s : text) : option (text * text) :=
  match s with
  | [] => None
  | c :: s1 =>
      if c =? 34 then Some ([], s1)
      else if c =? 92 then
        match s1 with
        | [] => None
        | e :: s2 =>
            if e =? 117 then
              match s2 with
              | a :: b :: c' :: d :: s3 =>
                  match unhex4 a b c' d with
                  | None => None
                  | Some u =>
                      if is_high u then
                        match s3 with
                        | b1 :: u1 :: a2 :: b2 :: c2 :: d2 :: s4 =>
                            if (b1 =? 92) && (u1 =? 117) then
                              match unhex4 a2 b2 c2 d2 with
                              | Some u2 => if is_low u2 then ocons (join u u2) (scanstring s4)
                                           else ocons u (scanstring s3)
                              | None => ocons u (scanstring s3)
                              end
                            else ocons u (scanstring s3)
                        | _ => ocons u (scanstring s3)
                        end
                      else ocons u (scanstring s3)
                  end
              | _ => None
              end
            else match unescape e with
                 | Some u => ocons u (scanstring s2)
                 | None => None
                 end
        end
      else if c <? 32 then None
      else ocons c (scanstring s1)
  end.

(** A decimal digit, json.load (json_helper.py:71, 99, 124, 164). *)
Definition is_digit (c : N) : bool := (48 <=? c) && (c <=? 57).
(** The longest prefix of digits, json.load (json_helper.py:71, 99, 124, 164). *)
Fixpoint span_digits (s : text) : text * text :=
  match s with
  | c :: s' => if is_digit c then let (a, b) := span_digits s' in (c :: a, b) else ([], s)
  | [] => ([], [])
  end.
(** An optional minus, then 0 or a digit string without leading zero. Code: json.load (json_helper.py:71, 99, 124, 164). *)
Definition scan_nat (s : text) : option (text * text) :=
  match s with
  | c :: s' => if c =? 48 then Some ([48], s')
               else if is_digit c then Some (span_digits s) else None
  | [] => None
  end.
(** The integer part of a number, json.load (json_helper.py:71, 99, 124, 164). *)
Definition scan_int (s : text) : option (text * text) :=
  match s with
  | c :: s' => if c =? 45 then match scan_nat s' with Some (i, r) => Some (45 :: i, r) | None => None end
               else scan_nat s
  | [] => None
  end.
(** Optionally a point and at least one digit. Code: json.load (json_helper.py:71, 99, 124, 164). *)
Definition scan_frac (s : text) : text * text :=
  match s with
  | c :: s' => if c =? 46 then match span_digits s' with
                               | ([], _) => ([], s)
                               | (ds, r) => (46 :: ds, r)
                               end
               else ([], s)
  | [] => ([], s)
  end.
(** Optionally e or E, an optional sign, at least one digit. Code: json.load (json_helper.py:71, 99, 124, 164). *)
Definition scan_exp (s : text) : text * text :=
  match s with
  | c :: s' =>
      if (c =? 101) || (c =? 69) then
        match s' with
        | g :: s'' =>
            if (g =? 43) || (g =? 45) then
              match span_digits s'' with ([], _) => ([], s) | (ds, r) => (c :: g :: ds, r) end
            else match span_digits s' with ([], _) => ([], s) | (ds, r) => (c :: ds, r) end
        | [] => ([], s)
        end
      else ([], s)
  | [] => ([], s)
  end.
(** int() of digits, json.load (json_helper.py:71, 99, 124, 164). *)
Definition nat_value (ds : text) : N := fold_left (fun acc c => 10 * acc + (c - 48)) ds 0.
(** int() of an integer literal, json.load (json_helper.py:71, 99, 124, 164). *)
Definition int_value (i : text) : Z :=
  match i with
  | c :: ds => if c =? 45 then (- Z.of_N (nat_value ds))%Z else Z.of_N (nat_value i)
  | [] => 0%Z
  end.
(** A number, json.load (json_helper.py:71, 99, 124, 164). *)
Definition scan_number (s : text) : option (json * text) :=
  match scan_int s with
  | None => None
  | Some (i, r) =>
      let (f, r1) := scan_frac r in
      let (e, r2) := scan_exp r1 in
      match f ++ e with
      | [] => Some (JInt (int_value i), r2)
      | fe => Some (JFloat (i ++ fe), r2)
      end
  end.
(** Skipping an expected word, json.load (json_helper.py:71, 99, 124, 164). *)
Fixpoint strip (p s : text) : option text :=
  match p, s with
  | [], _ => Some s
  | x :: p', y :: s' => if x =? y then strip p' s' else None
  | _, _ => None
  end.
(** The first of several words the text begins with, json.load (json_helper.py:71, 99, 124, 164). *)
Fixpoint first_literal (ls : list (text * json)) (s : text) : option (json * text) :=
  match ls with
  | [] => None
  | (p, v) :: ls' => match strip p s with Some r => Some (v, r) | None => first_literal ls' s end
  end.
(** The constants of JSON and of Python, json.load (json_helper.py:71, 99, 124, 164). *)
Definition literals : list (text * json) :=
  [(txt "null", JNull); (txt "true", JBool true); (txt "false", JBool false);
   (txt "NaN", JFloat (txt "NaN")); (txt "Infinity", JFloat (txt "Infinity"));
   (txt "-Infinity", JFloat (txt "-Infinity"))].
(** Numbers and literals. Code: json.load (json_helper.py:71, 99, 124, 164). *)
Definition scan_scalar (s : text) : option (json * text) :=
  match scan_number s with Some x => Some x | None => first_literal literals s end.

(** dict(pairs): later duplicates overwrite the value. Code: json.load (json_helper.py:71, 99, 124, 164). *)
Definition mkdict (ps : list (text * json)) : list (text * json) :=
  fold_left (fun d p => dset text_eqb (fst p) (snd p) d) ps [].

(** A value, json.load (json_helper.py:71, 99, 124, 164); [n] bounds the depth of nesting. *)
Fixpoint pvalue (n : nat) (s : text) : option (json * text) :=
  match n with
  | O => None
  | S n =>
      match s with
      | [] => None
      | c :: s1 =>
          if c =? 34 then match scanstring s1 with Some (x, r) => Some (JStr x, r) | None => None end
          else if c =? 123 then
            match skip_ws s1 with
            | [] => None
            | c2 :: r => if c2 =? 125 then Some (JObj [], r)
                         else match pmembers n (skip_ws s1) with
                              | Some (ps, r) => Some (JObj (mkdict ps), r)
                              | None => None
                              end
            end
          else if c =? 91 then
            match skip_ws s1 with
            | [] => None
            | c2 :: r => if c2 =? 93 then Some (JList [], r)
                         else match pelements n (skip_ws s1) with
                              | Some (l, r) => Some (JList l, r)
                              | None => None
                              end
            end
          else scan_scalar s
      end
  end
with pmembers (n : nat) (s : text) : option (list (text * json) * text) :=
  match n with
  | O => None
  | S n =>
      match s with
      | [] => None
      | q :: s1 =>
          if q =? 34 then
            match scanstring s1 with
            | None => None
            | Some (k, r) =>
                match skip_ws r with
                | [] => None
                | col :: r1 =>
                    if col =? 58 then
                      match pvalue n (skip_ws r1) with
                      | None => None
                      | Some (v, r2) =>
                          match skip_ws r2 with
                          | [] => None
                          | c :: r3 =>
                              if c =? 125 then Some ([(k, v)], r3)
                              else if c =? 44 then
                                match pmembers n (skip_ws r3) with
                                | Some (ps, r4) => Some ((k, v) :: ps, r4)
                                | None => None
                                end
                              else None
                          end
                      end
                    else None
                end
            end
          else None
      end
  end
with pelements (n : nat) (s : text) : option (list json * text) :=
  match n with
  | O => None
  | S n =>
      match pvalue n s with
      | None => None
      | Some (v, r) =>
          match skip_ws r with
          | [] => None
          | c :: r1 =>
              if c =? 93 then Some ([v], r1)
              else if c =? 44 then
                match pelements n (skip_ws r1) with
                | Some (l, r2) => Some (v :: l, r2)
                | None => None
                end
              else None
          end
      end
  end.

(** json.load of the whole text; the fuel always suffices (Json_Proofs.fuel_irrelevant). Code: json_helper.py:71, 99, 124, 164. *)
Definition loads (s : text) : res json :=
  match pvalue (2 * List.length s + 2) (skip_ws s) with
  | Some (v, r) => match skip_ws r with [] => Ok v | _ => Err JSONDecodeError end
  | None => Err JSONDecodeError
  end.

(** ** Writing (json/encoder.py, ensure_ascii=True, indent=4) *)
(** Hexadecimal digits, json.dump (json_helper.py:85, 150). *)
Definition hexd (n : N) : N := if n <? 10 then 48 + n else 87 + n.
(** Four hexadecimal digits, json.dump (json_helper.py:85, 150). *)
Definition hex4 (u : N) : text := [hexd (u / 4096); hexd (u / 256 mod 16); hexd (u / 16 mod 16); hexd (u mod 16)].
(** The escape of a 16 bit unit, json.dump (json_helper.py:85, 150). *)
Definition uesc (u : N) : text := 92 :: 117 :: hex4 u.
(** One character of a string, json.dump (json_helper.py:85, 150). *)
Definition enc_char (c : N) : text :=
  if c =? 34 then [92; 34] else if c =? 92 then [92; 92]
  else if (32 <=? c) && (c <=? 126) then [c]
  else if c =? 10 then [92; 110] else if c =? 13 then [92; 114] else if c =? 9 then [92; 116]
  else if c =? 12 then [92; 102] else if c =? 8 then [92; 98]
  else if c <? 65536 then uesc c
  else uesc (55296 + (c - 65536) / 1024) ++ uesc (56320 + (c - 65536) mod 1024).
(** The characters of a string, json.dump (json_helper.py:85, 150). *)
Definition enc_chars (s : text) : text := flat_map enc_char s.
(** A string, json.dump (json_helper.py:85, 150). *)
Definition enc_str (s : text) : text := 34 :: enc_chars s ++ [34].

(** Decimal digits; fuel: the number of binary digits is enough. Code: json.dump (json_helper.py:85, 150). *)
Fixpoint digits_fuel (k : nat) (n : N) : text :=
  match k with
  | O => []
  | S k => if n <? 10 then [48 + n] else digits_fuel k (n / 10) ++ [48 + n mod 10]
  end.
(** str of a natural number, json.dump (json_helper.py:85, 150). *)
Definition digits (n : N) : text := digits_fuel (S (N.size_nat n)) n.
(** str of an int, json.dump (json_helper.py:85, 150). *)
Definition enc_int (z : Z) : text := if (z <? 0)%Z then 45 :: digits (Z.abs_N z) else digits (Z.abs_N z).
(** A new line with its indentation (indent=4), json.dump (json_helper.py:85, 150). *)
Definition newline (level : nat) : text := 10 :: repeat 32 (4 * level).

(** A value, json.dump (json_helper.py:85, 150). *)
Fixpoint enc (level : nat) (v : json) : text :=
  match v with
  | JNull => txt "null"
  | JBool true => txt "true"
  | JBool false => txt "false"
  | JInt z => enc_int z
  | JFloat l => l
  | JStr s => enc_str s
  | JList [] => [91; 93]
  | JList (x :: l) =>
      91 :: newline (S level) ++ enc (S level) x ++
        (fix items (l : list json) : text :=
           match l with
           | [] => []
           | y :: l' => 44 :: newline (S level) ++ enc (S level) y ++ items l'
           end) l ++ newline level ++ [93]
  | JObj [] => [123; 125]
  | JObj ((k, x) :: d) =>
      123 :: newline (S level) ++ enc_str k ++ [58; 32] ++ enc (S level) x ++
        (fix items (d : list (text * json)) : text :=
           match d with
           | [] => []
           | (k', y) :: d' => 44 :: newline (S level) ++ enc_str k' ++ [58; 32] ++ enc (S level) y ++ items d'
           end) d ++ newline level ++ [125]
  end.
(** The whole text, json.dump (json_helper.py:85, 150). *)
Definition dumps (v : json) : text := enc 0 v.
