(** JSON values (serde_json::Value), their text form, and maps.

    serde_json is a third-party dependency (Cargo.toml:34); this file models
    the behaviour of `to_writer`, `from_reader` and `Map` that
    src/storage.rs:169,296,382,394,417,439 and
    src/store/filesystem.rs:53,101 rely on. *)
From Verif Require Export Base.

(** Ordered syntax tree: object members in source order.  Integers are the
    u64/i64 numbers of serde_json; any other number is kept as its literal
    (simplification: an f64 is identified with its decimal literal). *)
Inductive json :=
  | JNull
  | JBool (b : bool)
  | JInt (z : Z)
  | JFloat (lit : bytes)
  | JStr (s : bytes)
  | JArr (l : list json)
  | JObj (m : list (bytes * json)).

(** serde_json::Map<String, Value> (a BTreeMap): association list, strictly
    sorted by key. *)
Notation jmap := (list (bytes * json)).

(** ** Maps *)

(** Byte-lexicographic order of Rust strings. *)
Fixpoint bcmp (a b : bytes) : comparison :=
  match a, b with
  | [], [] => Eq
  | [], _ :: _ => Lt
  | _ :: _, [] => Gt
  | x :: a', y :: b' =>
      match Z.compare (Z_of_byte x) (Z_of_byte y) with
      | Eq => bcmp a' b'
      | c => c
      end
  end.

(** Map::get *)
Fixpoint mget {A} (k : bytes) (m : list (bytes * A)) : option A :=
  match m with
  | [] => None
  | (k', v) :: m' => if beq k k' then Some v else mget k m'
  end.
(** Map::insert *)
Fixpoint minsert {A} (k : bytes) (v : A) (m : list (bytes * A))
  : list (bytes * A) :=
  match m with
  | [] => [(k, v)]
  | (k', v') :: m' =>
      match bcmp k k' with
      | Lt => (k, v) :: m
      | Eq => (k, v) :: m'
      | Gt => (k', v') :: minsert k v m'
      end
  end.
(** Map::remove *)
Fixpoint mremove {A} (k : bytes) (m : list (bytes * A)) : list (bytes * A) :=
  match m with
  | [] => []
  | (k', v') :: m' => if beq k k' then m' else (k', v') :: mremove k m'
  end.
(** `for (k, v) in b { a.insert(k, v) }` *)
Definition mmerge {A} (a b : list (bytes * A)) : list (bytes * A) :=
  foldl (fun acc kv => minsert (fst kv) (snd kv) acc) a b.

(** The Value a syntax tree denotes: objects become maps, the last duplicate
    of a key wins. *)
Fixpoint norm (j : json) : json :=
  match j with
  | JArr l => JArr (map norm l)
  | JObj m => JObj (mmerge [] (map (fun kv => (fst kv, norm (snd kv))) m))
  | _ => j
  end.

(** Structural equality test (`merged != existing`). *)
Fixpoint json_eqb (a b : json) : bool :=
  match a, b with
  | JNull, JNull => true
  | JBool x, JBool y => Bool.eqb x y
  | JInt x, JInt y => x =? y
  | JFloat x, JFloat y => beq x y
  | JStr x, JStr y => beq x y
  | JArr x, JArr y =>
      (fix go (x y : list json) :=
         match x, y with
         | [], [] => true
         | u :: x', v :: y' => json_eqb u v && go x' y'
         | _, _ => false
         end) x y
  | JObj x, JObj y =>
      (fix go (x y : jmap) :=
         match x, y with
         | [], [] => true
         | (k, u) :: x', (k', v) :: y' => beq k k' && json_eqb u v && go x' y'
         | _, _ => false
         end) x y
  | _, _ => false
  end.

(** Number of nested arrays/objects. *)
Fixpoint jdepth (j : json) : nat :=
  match j with
  | JArr l => S (foldr Nat.max 0%nat (map jdepth l))
  | JObj m => S (foldr Nat.max 0%nat (map (fun kv => jdepth (snd kv)) m))
  | _ => 0
  end.

(** ** Printing: serde_json compact formatter *)

Definition hex_digit (z : Z) : byte :=
  if z <? 10 then byte_of_Z (48 + z) else byte_of_Z (87 + z).
Definition print_char (b : byte) : bytes :=
  let z := Z_of_byte b in
  if z =? 34 then B "\""" else if z =? 92 then B "\\"
  else if z =? 8 then B "\b" else if z =? 9 then B "\t"
  else if z =? 10 then B "\n" else if z =? 12 then B "\f"
  else if z =? 13 then B "\r"
  else if z <? 32 then B "\u00" ++ [hex_digit (z / 16); hex_digit (z mod 16)]
  else [b].
Definition quote : byte := """"%char.
Definition print_string (s : bytes) : bytes :=
  quote :: concat (map print_char s) ++ [quote].
Definition print_int (z : Z) : bytes :=
  if z <? 0 then "-"%char :: show_nat (- z) else show_nat z.

(** Join with commas. *)
Fixpoint commas (l : list bytes) : bytes :=
  match l with
  | [] => []
  | [x] => x
  | x :: l' => x ++ ","%char :: commas l'
  end.

Fixpoint print (j : json) : bytes :=
  match j with
  | JNull => B "null"
  | JBool true => B "true"
  | JBool false => B "false"
  | JInt z => print_int z
  | JFloat lit => lit
  | JStr s => print_string s
  | JArr l => "["%char :: commas (map print l) ++ B "]"
  | JObj m =>
      "{"%char :: commas (map (fun kv => print_string (fst kv) ++
                                 ":"%char :: print (snd kv)) m) ++ B "}"
  end.

(** ** Parsing: serde_json::from_reader *)

Definition is_ws (b : byte) : bool :=
  let z := Z_of_byte b in (z =? 32) || (z =? 9) || (z =? 10) || (z =? 13).
Fixpoint skip_ws (s : bytes) : bytes :=
  match s with
  | b :: s' => if is_ws b then skip_ws s' else s
  | [] => []
  end.

Fixpoint span_digits (s : bytes) : bytes * bytes :=
  match s with
  | b :: s' => if is_digit b then let '(d, r) := span_digits s' in (b :: d, r)
               else ([], s)
  | [] => ([], [])
  end.

(** Fraction and exponent suffixes of a number token: [Some (token, rest)],
    the token empty if absent; [None] on a malformed suffix. *)
Definition span_frac (s : bytes) : option (bytes * bytes) :=
  match s with
  | "."%char :: s' =>
      let '(d, r) := span_digits s' in
      match d with [] => None | _ => Some ("."%char :: d, r) end
  | _ => Some ([], s)
  end.
Definition span_exp (s : bytes) : option (bytes * bytes) :=
  match s with
  | c :: s' =>
      if bool_decide (c = "e"%char) || bool_decide (c = "E"%char) then
        let '(sg, s'') := match s' with
                          | "+"%char :: t => (B "+", t)
                          | "-"%char :: t => (B "-", t)
                          | _ => ([], s') end in
        let '(d, r) := span_digits s'' in
        match d with [] => None | _ => Some (c :: sg ++ d, r) end
      else Some ([], s)
  | [] => Some ([], s)
  end.

Definition int_lo : Z := - 2 ^ 63.
Definition pnum (s : bytes) : option (json * bytes) :=
  let '(neg, s1) := match s with "-"%char :: t => (true, t) | _ => (false, s) end in
  let '(ip, s2) := span_digits s1 in
  match ip with
  | [] => None
  | d0 :: more =>
      if bool_decide (d0 = "0"%char) && negb (bool_decide (more = [])) then None
      else match span_frac s2 with
      | None => None
      | Some (fr, s3) =>
          match span_exp s3 with
          | None => None
          | Some (ex, s4) =>
              let tok := (if neg then B "-" else []) ++ ip ++ fr ++ ex in
              let z := if neg then - dec_val ip else dec_val ip in
              match fr, ex with
              | [], [] =>
                  if neg && (z =? 0) then Some (JFloat tok, s4)
                  else if (int_lo <=? z) && (z <? two64) then Some (JInt z, s4)
                  else Some (JFloat tok, s4)
              | _, _ => Some (JFloat tok, s4)
              end
          end
      end
  end.

Definition hex_val (b : byte) : option Z :=
  let z := Z_of_byte b in
  if (48 <=? z) && (z <=? 57) then Some (z - 48)
  else if (97 <=? z) && (z <=? 102) then Some (z - 87)
  else if (65 <=? z) && (z <=? 70) then Some (z - 55)
  else None.
Definition hex4 (s : bytes) : option (Z * bytes) :=
  match s with
  | a :: b :: c :: d :: r =>
      match hex_val a, hex_val b, hex_val c, hex_val d with
      | Some a, Some b, Some c, Some d =>
          Some (((a * 16 + b) * 16 + c) * 16 + d, r)
      | _, _, _, _ => None
      end
  | _ => None
  end.
(** char::encode_utf8 *)
Definition utf8 (c : Z) : bytes :=
  if c <? 128 then [byte_of_Z c]
  else if c <? 2048 then [byte_of_Z (192 + c / 64); byte_of_Z (128 + c mod 64)]
  else if c <? 65536 then
    [byte_of_Z (224 + c / 4096); byte_of_Z (128 + c / 64 mod 64);
     byte_of_Z (128 + c mod 64)]
  else [byte_of_Z (240 + c / 262144); byte_of_Z (128 + c / 4096 mod 64);
        byte_of_Z (128 + c / 64 mod 64); byte_of_Z (128 + c mod 64)].

(** After a backslash. *)
Definition pescape (s : bytes) : option (bytes * bytes) :=
  match s with
  | c :: r =>
      let z := Z_of_byte c in
      if z =? 34 then Some ([byte_of_Z 34], r)
      else if z =? 92 then Some ([byte_of_Z 92], r)
      else if z =? 47 then Some ([byte_of_Z 47], r)
      else if z =? 98 then Some ([byte_of_Z 8], r)
      else if z =? 102 then Some ([byte_of_Z 12], r)
      else if z =? 110 then Some ([byte_of_Z 10], r)
      else if z =? 114 then Some ([byte_of_Z 13], r)
      else if z =? 116 then Some ([byte_of_Z 9], r)
      else if z =? 117 then
        match hex4 r with
        | None => None
        | Some (n, r') =>
            if (56320 <=? n) && (n <=? 57343) then None
            else if (55296 <=? n) && (n <=? 56319) then
              match r' with
              | "\"%char :: "u"%char :: r'' =>
                  match hex4 r'' with
                  | Some (n2, r3) =>
                      if (56320 <=? n2) && (n2 <=? 57343)
                      then Some (utf8 (65536 + (n - 55296) * 1024 + (n2 - 56320)), r3)
                      else None
                  | None => None
                  end
              | _ => None
              end
            else Some (utf8 n, r')
        end
      else None
  | [] => None
  end.
(** String body after the opening quote; control characters are rejected. *)
Fixpoint pstr (fuel : nat) (s : bytes) : option (bytes * bytes) :=
  match fuel with
  | O => None
  | S f =>
      match s with
      | [] => None
      | c :: r =>
          let z := Z_of_byte c in
          if z =? 34 then Some ([], r)
          else if z =? 92 then
            match pescape r with
            | Some (u, r') =>
                match pstr f r' with
                | Some (t, r'') => Some (u ++ t, r'')
                | None => None
                end
            | None => None
            end
          else if z <? 32 then None
          else match pstr f r with
               | Some (t, r'') => Some (c :: t, r'')
               | None => None
               end
      end
  end.
(** str::from_utf8: well-formed UTF-8 (no overlong forms, no surrogates, nothing
    above U+10FFFF). *)
Definition between (lo : Z) (b : byte) (hi : Z) : bool := (lo <=? Z_of_byte b) && (Z_of_byte b <=? hi).
Definition utf8_head2 (a : byte) : bool := between 194 a 223.
Definition utf8_head3 (a b : byte) : bool :=
  (Z_of_byte a =? 224) && between 160 b 191 || between 225 a 236 && between 128 b 191
  || (Z_of_byte a =? 237) && between 128 b 159 || between 238 a 239 && between 128 b 191.
Definition utf8_head4 (a b : byte) : bool :=
  (Z_of_byte a =? 240) && between 144 b 191 || between 241 a 243 && between 128 b 191
  || (Z_of_byte a =? 244) && between 128 b 143.
Fixpoint utf8_ok (s : bytes) : bool :=
  match s with
  | [] => true
  | a :: s1 =>
      if Z_of_byte a <? 128 then utf8_ok s1
      else match s1 with
      | [] => false
      | b :: s2 =>
          if utf8_head2 a && between 128 b 191 then utf8_ok s2
          else match s2 with
          | [] => false
          | c :: s3 =>
              if utf8_head3 a b && between 128 c 191 then utf8_ok s3
              else match s3 with
              | [] => false
              | d :: s4 => utf8_head4 a b && between 128 c 191 && between 128 d 191 && utf8_ok s4
              end
          end
      end
  end.
(** A string, its whole value checked to be UTF-8 (IoRead::parse_str). *)
Definition pstring (s : bytes) : option (bytes * bytes) :=
  match pstr (length s) s with
  | Some (t, r) => if utf8_ok t then Some (t, r) else None
  | None => None
  end.

Fixpoint strip_prefix (p s : bytes) : option bytes :=
  match p, s with
  | [], _ => Some s
  | a :: p', b :: s' => if bool_decide (a = b) then strip_prefix p' s' else None
  | _ :: _, [] => None
  end.
Definition pword (w : bytes) (v : json) (s : bytes) : option (json * bytes) :=
  match strip_prefix w s with Some r => Some (v, r) | None => None end.

(** [d] is serde_json's remaining_depth: entering an array or object
    decrements it and fails on reaching 0.  [fuel] bounds the recursion; it is
    always taken larger than the input length, which suffices
    (JsonFacts.pval_print). *)
Fixpoint pval (fuel d : nat) (s : bytes) {struct fuel} : option (json * bytes) :=
  match fuel with
  | O => None
  | S f =>
      match skip_ws s with
      | [] => None
      | c :: r =>
          let z := Z_of_byte c in
          if z =? 110 then pword (B "ull") JNull r
          else if z =? 116 then pword (B "rue") (JBool true) r
          else if z =? 102 then pword (B "alse") (JBool false) r
          else if z =? 34 then
            match pstring r with Some (t, r') => Some (JStr t, r') | None => None end
          else if (z =? 45) || is_digit c then pnum (c :: r)
          else if z =? 91 then
            match d with
            | O | S O => None
            | S d' =>
                match skip_ws r with
                | "]"%char :: r' => Some (JArr [], r')
                | r' => match pelems f d' r' with
                        | Some (l, r'') => Some (JArr l, r'')
                        | None => None
                        end
                end
            end
          else if z =? 123 then
            match d with
            | O | S O => None
            | S d' =>
                match skip_ws r with
                | "}"%char :: r' => Some (JObj [], r')
                | r' => match pmembers f d' r' with
                        | Some (l, r'') => Some (JObj l, r'')
                        | None => None
                        end
                end
            end
          else None
      end
  end
with pelems (fuel d : nat) (s : bytes) {struct fuel}
  : option (list json * bytes) :=
  match fuel with
  | O => None
  | S f =>
      match pval f d s with
      | None => None
      | Some (v, r) =>
          match skip_ws r with
          | "]"%char :: r' => Some ([v], r')
          | ","%char :: r' =>
              match pelems f d r' with
              | Some (l, r'') => Some (v :: l, r'')
              | None => None
              end
          | _ => None
          end
      end
  end
with pmembers (fuel d : nat) (s : bytes) {struct fuel}
  : option (jmap * bytes) :=
  match fuel with
  | O => None
  | S f =>
      match skip_ws s with
      | c :: r0 =>
          if bool_decide (c = quote) then
            match pstring r0 with
            | None => None
            | Some (k, r1) =>
                match skip_ws r1 with
                | ":"%char :: r2 =>
                    match pval f d r2 with
                    | None => None
                    | Some (v, r) =>
                        match skip_ws r with
                        | "}"%char :: r' => Some ([(k, v)], r')
                        | ","%char :: r' =>
                            match pmembers f d r' with
                            | Some (l, r'') => Some ((k, v) :: l, r'')
                            | None => None
                            end
                        | _ => None
                        end
                    end
                | _ => None
                end
            end
          else None
      | [] => None
      end
  end.

(** Whole input: one value, then only white space. *)
Definition parse (s : bytes) : option json :=
  match pval (S (length s)) 128 s with
  | Some (v, r) => match skip_ws r with [] => Some v | _ => None end
  | None => None
  end.

(** Values serde_json can hold: integers in range, float literals that are
    float tokens, strings that are UTF-8. *)
Definition float_lit_ok (lit : bytes) : bool :=
  match pnum lit with
  | Some (JFloat l, []) => beq l lit
  | _ => false
  end.
Fixpoint json_ok (j : json) : bool :=
  match j with
  | JInt z => (int_lo <=? z) && (z <? two64)
  | JFloat lit => float_lit_ok lit
  | JStr s => utf8_ok s
  | JArr l => forallb json_ok l
  | JObj m => forallb (fun kv => utf8_ok (fst kv) && json_ok (snd kv)) m
  | _ => true
  end.

(** Strictly sorted keys, recursively: the values of type serde_json::Value. *)
Fixpoint keys_sorted {A} (m : list (bytes * A)) : bool :=
  match m with
  | [] => true
  | (k, _) :: m' =>
      match m' with
      | [] => true
      | (k', _) :: _ => match bcmp k k' with Lt => keys_sorted m' | _ => false end
      end
  end.
Fixpoint is_value (j : json) : bool :=
  match j with
  | JArr l => forallb is_value l
  | JObj m => keys_sorted m && forallb (fun kv => is_value (snd kv)) m
  | _ => true
  end.
