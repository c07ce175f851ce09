(** Specification of JSON texts: a grammar, with the value each text stands for. *)
From Verif Require Export SpecText JsonText.
Open Scope Z_scope.

(** * Parts *)

(** Spaces, tabs and line breaks. *)
Definition spaces (w : text) : Prop := Forall (fun c => c ∈ [chr 32; chr 9; chr 10; chr 13]) w.

(** The decimal and the hexadecimal digits. *)
Definition decimal (c : char) (z : Z) : Prop := 0 <= z /\ chars "0123456789" !! Z.to_nat z = Some c.
Definition hexadecimal (c : char) (z : Z) : Prop :=
  0 <= z /\ (chars "0123456789abcdef" !! Z.to_nat z = Some c \/ chars "0123456789ABCDEF" !! Z.to_nat z = Some c).

(** The letters after a backslash, with the codes they stand for. *)
Definition letters : list (char * Z) :=
  [(chr 34, 34); (chr 92, 92); (chr 47, 47); (chr 98, 8); (chr 102, 12); (chr 110, 10); (chr 114, 13); (chr 116, 9)].

(** The text between the quotes of a string. *)
Inductive string_text : text -> text -> Prop :=
| string_end : string_text [] []
| string_plain c s t : 32 <= code c -> c <> chr 34 -> c <> chr 92 -> string_text s t -> string_text (c :: s) (c :: t)
| string_letter e c s t : (e, code c) ∈ letters -> string_text s t -> string_text (c :: s) (chr 92 :: e :: t)
| string_code a b c d z1 z2 z3 z4 x s t : hexadecimal a z1 -> hexadecimal b z2 -> hexadecimal c z3 -> hexadecimal d z4 ->
    code x = 4096 * z1 + 256 * z2 + 16 * z3 + z4 -> string_text s t ->
    string_text (x :: s) (chr 92 :: chr 117 :: a :: b :: c :: d :: t).

(** Decimal digits, at least one. *)
Inductive numeral : text -> Z -> Prop :=
| numeral_one c z : decimal c z -> numeral [c] z
| numeral_more t v c z : numeral t v -> decimal c z -> numeral (t ++ [c]) (10 * v + z).

(** Digits without superfluous zeros at the front. *)
Definition whole (t : text) (v : Z) : Prop := numeral t v /\ (t = [chr 48] \/ head t <> Some (chr 48)).

(** A minus sign, or nothing. *)
Definition signed (s : text) (g : Z) : Prop := (s = [] /\ g = 1) \/ (s = [chr 45] /\ g = -1).

Definition int_text (z : Z) (t : text) : Prop := exists s g u v, signed s g /\ whole u v /\ t = s ++ u /\ z = g * v.

(** A fraction of [n] digits, or nothing. *)
Definition frac_text (t : text) (f n : Z) : Prop :=
  (t = [] /\ f = 0 /\ n = 0) \/ exists d, t = chr 46 :: d /\ numeral d f /\ n = zlen d.
(** An exponent, or nothing. *)
Definition exp_text (t : text) (e : Z) : Prop :=
  (t = [] /\ e = 0) \/ exists m s g d v, (m = chr 101 \/ m = chr 69) /\ (signed s g \/ (s = [chr 43] /\ g = 1)) /\ numeral d v /\ t = m :: s ++ d /\ e = g * v.

(** A number with a fraction or an exponent is the float nearest to it. *)
Definition float_text (q : Q) (t : text) : Prop :=
  exists s g u v fr f n ex e, signed s g /\ whole u v /\ frac_text fr f n /\ exp_text ex e /\ (fr <> [] \/ ex <> []) /\
    t = s ++ u ++ fr ++ ex /\ q = flt53 (inject_Z (g * (v * 10 ^ n + f)) * (10 # 1) ^ (e - n)).

(** * Values *)

(** The last value of a key. *)
Definition last_value {V} (ms : dict V) (k : string) (v : V) : Prop := exists pre post, ms = pre ++ (k, v) :: post /\ k ∉ post.*1.

(** The keys in the order of their first occurrence, each with its last value. *)
Definition collected {V} (ms l : dict V) : Prop :=
  l.*1 = reverse (remove_dups (reverse ms.*1)) /\ forall k v, (k, v) ∈ l -> last_value ms k v.

Inductive json_text : json -> text -> Prop :=
| text_null : json_text JNull (chars "null")
| text_true : json_text (JBool true) (chars "true")
| text_false : json_text (JBool false) (chars "false")
| text_int z t : int_text z t -> json_text (JInt z) t
| text_float q t : float_text q t -> json_text (JFloat q) t
| text_string s t : string_text s t -> json_text (JStr (str s)) (chr 34 :: t ++ [chr 34])
| text_no_items w : spaces w -> json_text (JArr []) (chr 91 :: w ++ [chr 93])
| text_items w l t : spaces w -> items_text l t -> json_text (JArr l) (chr 91 :: w ++ t ++ [chr 93])
| text_no_members w : spaces w -> json_text (JObj []) (chr 123 :: w ++ [chr 125])
| text_members w ms l t : spaces w -> members_text ms t -> collected ms l -> json_text (JObj l) (chr 123 :: w ++ t ++ [chr 125])
with items_text : list json -> text -> Prop :=
| items_last j t w : json_text j t -> spaces w -> items_text [j] (t ++ w)
| items_next j t w w' l u : json_text j t -> spaces w -> spaces w' -> items_text l u -> items_text (j :: l) (t ++ w ++ chr 44 :: w' ++ u)
with members_text : dict json -> text -> Prop :=
| members_last k kt w w' j t w1 : string_text k kt -> spaces w -> spaces w' -> json_text j t -> spaces w1 ->
    members_text [(str k, j)] (chr 34 :: kt ++ chr 34 :: w ++ chr 58 :: w' ++ t ++ w1)
| members_next k kt w w' j t w1 w2 l u : string_text k kt -> spaces w -> spaces w' -> json_text j t -> spaces w1 -> spaces w2 -> members_text l u ->
    members_text ((str k, j) :: l) (chr 34 :: kt ++ chr 34 :: w ++ chr 58 :: w' ++ t ++ w1 ++ chr 44 :: w2 ++ u).

(** A value with blanks around it. *)
Definition document (j : json) (t : text) : Prop := exists w u w', spaces w /\ json_text j u /\ spaces w' /\ t = w ++ u ++ w'.

(** * Printing *)

(** [frepr] writes every float of the value as a number that stands for it. *)
Fixpoint floats_ok (frepr : Q -> text) (j : json) : Prop :=
  match j with
  | JFloat q => float_text q (frepr q)
  | JArr l => (fix all l := match l with [] => True | x :: l' => floats_ok frepr x /\ all l' end) l
  | JObj l => (fix all l := match l with [] => True | (_, x) :: l' => floats_ok frepr x /\ all l' end) l
  | _ => True
  end.

(** Line breaks and printable ASCII characters. *)
Definition printable (t : text) : Prop := Forall (fun c => c = chr 10 \/ 32 <= code c <= 126) t.

(** What the model leaves open: NaN, Infinity and escapes of characters above U+00FF. *)
Definition beyond (t : text) : Prop := exists pre w post, t = pre ++ w ++ post /\
  (w = chars "NaN" \/ w = chars "Infinity" \/
   exists a b c d z1 z2 z3 z4, w = [chr 92; chr 117; a; b; c; d] /\ hexadecimal a z1 /\ hexadecimal b z2 /\ hexadecimal c z3 /\ hexadecimal d z4 /\
     255 < 4096 * z1 + 256 * z2 + 16 * z3 + z4).
