(** Specification vocabulary: JSON texts (RFC 8259) and the values they denote. *)
From Verif Require Import Json.
Local Open Scope Z_scope.

(** Space, tab, line feed, carriage return. *)
Definition white (w : bytes) : Prop := Forall (fun c => Z_of_byte c ∈ [32; 9; 10; 13]) w.

(** ** Strings *)

Definition backslash : byte := "\"%char.
(** Letter after the backslash, code of the character. *)
Definition simple_escapes : list (byte * Z) :=
  [(quote, 34); (backslash, 92); ("/"%char, 47); ("b"%char, 8); ("f"%char, 12); ("n"%char, 10);
   ("r"%char, 13); ("t"%char, 9)].
Definition hex_says (c : byte) (n : Z) : Prop :=
  exists i, n = Z.of_nat i /\
  (B "0123456789abcdef" !! i = Some c \/ B "0123456789ABCDEF" !! i = Some c).
Definition hex4_says (h : bytes) (n : Z) : Prop :=
  exists a b c d x y z u, h = [a; b; c; d] /\ hex_says a x /\ hex_says b y /\ hex_says c z /\ hex_says d u
  /\ n = 4096 * x + 256 * y + 16 * z + u.
Definition low_six (z : Z) : Prop := 0 <= z < 64.
(** The UTF-8 form of a code point. *)
Inductive utf8_says : Z -> bytes -> Prop :=
  | utf8_1 n : 0 <= n < 128 -> utf8_says n [byte_of_Z n]
  | utf8_2 a b : 128 <= 64 * a + b < 2048 -> low_six b ->
      utf8_says (64 * a + b) (map byte_of_Z [192 + a; 128 + b])
  | utf8_3 a b c : 2048 <= 4096 * a + 64 * b + c < 65536 -> low_six b -> low_six c ->
      utf8_says (4096 * a + 64 * b + c) (map byte_of_Z [224 + a; 128 + b; 128 + c])
  | utf8_4 a b c d : 65536 <= 262144 * a + 4096 * b + 64 * c + d < 1114112 ->
      low_six b -> low_six c -> low_six d ->
      utf8_says (262144 * a + 4096 * b + 64 * c + d) (map byte_of_Z [240 + a; 128 + b; 128 + c; 128 + d]).
(** What is between the quotes, and the string it denotes. *)
Inductive chars : bytes -> bytes -> Prop :=
  | chars_nil : chars [] []
  | chars_plain c t s : 32 <= Z_of_byte c -> c <> quote -> c <> backslash -> chars t s ->
      chars (c :: t) (c :: s)
  | chars_escape c z t s : (c, z) ∈ simple_escapes -> chars t s ->
      chars (backslash :: c :: t) (byte_of_Z z :: s)
  | chars_unicode h n u t s : hex4_says h n -> ~ (55296 <= n <= 57343) -> utf8_says n u -> chars t s ->
      chars (backslash :: "u"%char :: h ++ t) (u ++ s)
  | chars_pair h1 n1 h2 n2 u t s : hex4_says h1 n1 -> 55296 <= n1 <= 56319 ->
      hex4_says h2 n2 -> 56320 <= n2 <= 57343 ->
      utf8_says (65536 + 1024 * (n1 - 55296) + (n2 - 56320)) u -> chars t s ->
      chars (backslash :: "u"%char :: h1 ++ backslash :: "u"%char :: h2 ++ t) (u ++ s).
(** UTF-8 forms of characters, one after another. *)
Inductive utf8_text : bytes -> Prop :=
  | text_nil : utf8_text []
  | text_char n u s : utf8_says n u -> ~ (55296 <= n <= 57343) -> utf8_text s -> utf8_text (u ++ s).
Definition string_says (t s : bytes) : Prop := exists b, t = quote :: b ++ [quote] /\ chars b s /\ utf8_text s.

(** ** Numbers *)

Definition some_digits (d : bytes) : Prop := d <> [] /\ Forall (fun c => 48 <= Z_of_byte c <= 57) d.
(** An integer of the range of i64 or u64 denotes itself, every other number its
    text; minus zero is not an integer. *)
Definition number_says (t : bytes) (v : json) : Prop :=
  exists neg ip fr ex,
  t = (if neg : bool then ["-"%char] else []) ++ ip ++ fr ++ ex
  /\ some_digits ip /\ (head ip = Some "0"%char -> ip = ["0"%char])
  /\ (fr = [] \/ exists d, fr = "."%char :: d /\ some_digits d)
  /\ (ex = [] \/ exists e sg d, ex = e :: sg ++ d /\ (e = "e"%char \/ e = "E"%char)
        /\ (sg = [] \/ sg = ["+"%char] \/ sg = ["-"%char]) /\ some_digits d)
  /\ let z := if neg then - dec_val ip else dec_val ip in
     let int := fr = [] /\ ex = [] /\ ~ (neg = true /\ z = 0) /\ - 2 ^ 63 <= z < 2 ^ 64 in
     (int /\ v = JInt z \/ ~ int /\ v = JFloat t).

(** ** Values *)

Inductive value_says : bytes -> json -> Prop :=
  | says_null : value_says (B "null") JNull
  | says_true : value_says (B "true") (JBool true)
  | says_false : value_says (B "false") (JBool false)
  | says_num t v : number_says t v -> value_says t v
  | says_str t s : string_says t s -> value_says t (JStr s)
  | says_arr0 w : white w -> value_says ("["%char :: w ++ ["]"%char]) (JArr [])
  | says_arr t l : elements_say t l -> value_says ("["%char :: t ++ ["]"%char]) (JArr l)
  | says_obj0 w : white w -> value_says ("{"%char :: w ++ ["}"%char]) (JObj [])
  | says_obj t m : members_say t m -> value_says ("{"%char :: t ++ ["}"%char]) (JObj m)
with elements_say : bytes -> list json -> Prop :=
  | say_one w1 t w2 v : white w1 -> value_says t v -> white w2 -> elements_say (w1 ++ t ++ w2) [v]
  | say_more w1 t w2 v t' l : white w1 -> value_says t v -> white w2 -> elements_say t' l ->
      elements_say (w1 ++ t ++ w2 ++ ","%char :: t') (v :: l)
with members_say : bytes -> jmap -> Prop :=
  | say_member w1 tk k w2 w3 t v w4 : white w1 -> string_says tk k -> white w2 ->
      white w3 -> value_says t v -> white w4 ->
      members_say (w1 ++ tk ++ w2 ++ ":"%char :: w3 ++ t ++ w4) [(k, v)]
  | say_members w1 tk k w2 w3 t v w4 t' m : white w1 -> string_says tk k -> white w2 ->
      white w3 -> value_says t v -> white w4 -> members_say t' m ->
      members_say (w1 ++ tk ++ w2 ++ ":"%char :: w3 ++ t ++ w4 ++ ","%char :: t') ((k, v) :: m).
(** A whole text. *)
Definition json_says (text : bytes) (v : json) : Prop :=
  exists w1 t w2, text = w1 ++ t ++ w2 /\ white w1 /\ value_says t v /\ white w2.
