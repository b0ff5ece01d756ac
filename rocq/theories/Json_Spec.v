(** JSON texts and what they mean, after RFC 8259 and RFC 3629. *)
From Coq Require Import ZArith List Bool Sorted.
From Verif Require Import Json_Model.
Import ListNotations.
Local Open Scope Z_scope.

(** ** Characters *)
(** The numbers of characters: no surrogates. *)
Definition scalar (c : Z) : Prop := 0 <= c < 0xD800 \/ 0xE000 <= c <= 0x10FFFF.
(** UTF-8 (RFC 3629): bits of the number, six in each of the following bytes. *)
Inductive utf8 : Z -> list Z -> Prop :=
| utf8_1 c : 0 <= c < 0x80 -> utf8 c [c]
| utf8_2 a b : 2 <= a < 32 -> 0 <= b < 64 -> utf8 (a * 64 + b) [0xC0 + a; 0x80 + b]
| utf8_3 a b c : 0 <= a < 16 -> 0 <= b < 64 -> 0 <= c < 64 -> 0x800 <= a * 4096 + b * 64 + c -> scalar (a * 4096 + b * 64 + c) -> utf8 (a * 4096 + b * 64 + c) [0xE0 + a; 0x80 + b; 0x80 + c]
| utf8_4 a b c d : 0 <= a < 8 -> 0 <= b < 64 -> 0 <= c < 64 -> 0 <= d < 64 -> 0x10000 <= a * 262144 + b * 4096 + c * 64 + d <= 0x10FFFF ->
    utf8 (a * 262144 + b * 4096 + c * 64 + d) [0xF0 + a; 0x80 + b; 0x80 + c; 0x80 + d].
(** Text in UTF-8. *)
Inductive valid : list Z -> Prop :=
| valid_nil : valid []
| valid_char c u s : utf8 c u -> valid s -> valid (u ++ s).
(** U+FFFD, which stands for what is no character. *)
Definition replacement : list Z := [0xEF; 0xBF; 0xBD].

(** ** Strings *)
(** Hex digits. *)
Inductive hexval : Z -> Z -> Prop :=
| hex_digit b : 48 <= b <= 57 -> hexval b (b - 48)
| hex_lower b : 97 <= b <= 102 -> hexval b (b - 87)
| hex_upper b : 65 <= b <= 70 -> hexval b (b - 55).
(** Four of them. *)
Inductive hexes : list Z -> Z -> Prop :=
| hexes_4 a b c d x y z w : hexval a x -> hexval b y -> hexval c z -> hexval d w -> hexes [a; b; c; d] (x * 4096 + y * 256 + z * 16 + w).
(** The letters after a backslash. *)
Inductive stands_for : Z -> Z -> Prop :=
| s_quote : stands_for 34 34 | s_back : stands_for 92 92 | s_slash : stands_for 47 47 | s_b : stands_for 98 8 | s_f : stands_for 102 12 | s_n : stands_for 110 10 | s_r : stands_for 114 13 | s_t : stands_for 116 9.
(** Surrogates. *)
Definition high (u : Z) : Prop := 0xD800 <= u < 0xDC00.
Definition low (u : Z) : Prop := 0xDC00 <= u < 0xE000.
(** [spells lenient s t]: between quotes, [t] is a way to write [s].  When [lenient], escapes of single surrogates and bytes that belong to no character may occur as well;
    they stand for U+FFFD. *)
Inductive spells (lenient : bool) : list Z -> list Z -> Prop :=
| sp_nil : spells lenient [] []
| sp_char c u s t : utf8 c u -> 32 <= c -> c <> 34 -> c <> 92 -> spells lenient s t -> spells lenient (u ++ s) (u ++ t)
| sp_letter e x s t : stands_for e x -> spells lenient s t -> spells lenient (x :: s) (92 :: e :: t)
| sp_hex h c u s t : hexes h c -> utf8 c u -> spells lenient s t -> spells lenient (u ++ s) (92 :: 117 :: h ++ t)
| sp_pair h hi g lo u s t : hexes h hi -> hexes g lo -> high hi -> low lo -> utf8 (0x10000 + (hi - 0xD800) * 0x400 + (lo - 0xDC00)) u -> spells lenient s t -> spells lenient (u ++ s) (92 :: 117 :: h ++ 92 :: 117 :: g ++ t)
| sp_single h c s t : lenient = true -> hexes h c -> high c \/ low c -> (forall g lo t', high c -> t = 92 :: 117 :: g ++ t' -> hexes g lo -> ~ low lo) -> spells lenient s t -> spells lenient (replacement ++ s) (92 :: 117 :: h ++ t)
| sp_bad b s t : lenient = true -> 128 <= b -> (forall c u t', utf8 c u -> b :: t <> u ++ t') -> spells lenient s t -> spells lenient (replacement ++ s) (b :: t).

(** ** Numbers *)
Definition digit_run (l : list Z) : Prop := l <> [] /\ Forall (fun b => 48 <= b <= 57) l.
Definition int_part (l : list Z) : Prop := l = [48] \/ exists b r, l = b :: r /\ b <> 48 /\ digit_run l.
Definition frac_part (l : list Z) : Prop := l = [] \/ exists r, l = 46 :: r /\ digit_run r.
Definition exp_part (l : list Z) : Prop := l = [] \/ exists e sg r, l = e :: sg ++ r /\ (e = 101 \/ e = 69) /\ (sg = [] \/ sg = [43] \/ sg = [45]) /\ digit_run r.
Definition number_text (l : list Z) : Prop := exists sg i f e, l = sg ++ i ++ f ++ e /\ (sg = [] \/ sg = [45]) /\ int_part i /\ frac_part f /\ exp_part e.

(** ** Values *)
Definition blank (l : list Z) : Prop := Forall (fun b => b = 32 \/ b = 9 \/ b = 10 \/ b = 13) l.
(** Entries in the order of their keys, each key once. *)
Definition ordered {N} (m : list (list Z * json N)) : Prop := Sorted.StronglySorted (fun a b => before (fst a) (fst b) = true) m.
Fixpoint find {N} (k : list Z) (m : list (list Z * json N)) : option (json N) := match m with [] => None | (k', v) :: r => if list_eq_dec Z.eq_dec k k' then Some v else find k r end.
(** The map with these members; of members with the same name the last one counts. *)
Definition map_of {N} (ms m : list (list Z * json N)) : Prop := ordered m /\ forall k, find k m = find k (rev ms).
Section denotes.
Context {N : Type} (F : numbers N) (lenient : bool).
(** [denotes d v t]: [t] is a JSON text for [v], nested at most [d] deep. *)
Inductive denotes : Z -> json N -> list Z -> Prop :=
| d_null d : denotes d JNull [110; 117; 108; 108]
| d_true d : denotes d (JBool true) [116; 114; 117; 101]
| d_false d : denotes d (JBool false) [102; 97; 108; 115; 101]
| d_num d x t : number_text t -> read F t = Some x -> denotes d (JNum x) t
| d_str d s t : spells lenient s t -> denotes d (JStr s) (34 :: t ++ [34])
| d_empty d w : 0 < d -> blank w -> denotes d (JArr []) (91 :: w ++ [93])
| d_arr d l t : 0 < d -> items (d - 1) l t -> denotes d (JArr l) (91 :: t ++ [93])
| d_none d w : 0 < d -> blank w -> denotes d (JObj []) (123 :: w ++ [125])
| d_obj d ms m t : 0 < d -> pairs (d - 1) ms t -> map_of ms m -> denotes d (JObj m) (123 :: t ++ [125])
with items : Z -> list (json N) -> list Z -> Prop :=
| i_one d v t a b : blank a -> denotes d v t -> blank b -> items d [v] (a ++ t ++ b)
| i_more d v t a b l r : blank a -> denotes d v t -> blank b -> items d l r -> items d (v :: l) (a ++ t ++ b ++ 44 :: r)
with pairs : Z -> list (list Z * json N) -> list Z -> Prop :=
| p_one d k kt v t a b c e : blank a -> spells lenient k kt -> blank b -> blank c -> denotes d v t -> blank e -> pairs d [(k, v)] (a ++ 34 :: kt ++ 34 :: b ++ 58 :: c ++ t ++ e)
| p_more d k kt v t a b c e ms r : blank a -> spells lenient k kt -> blank b -> blank c -> denotes d v t -> blank e -> pairs d ms r -> pairs d ((k, v) :: ms) (a ++ 34 :: kt ++ 34 :: b ++ 58 :: c ++ t ++ e ++ 44 :: r).
(** A whole text. *)
Definition text_of (v : json N) (t : list Z) : Prop := exists a u b, t = a ++ u ++ b /\ blank a /\ denotes 10000 v u /\ blank b.
End denotes.

(** ** What can be written and read again *)
(** How deep a value is nested. *)
Fixpoint depth {N} (v : json N) : Z :=
  match v with
  | JArr l => 1 + fold_right Z.max 0 (map depth l)
  | JObj m => 1 + fold_right Z.max 0 (map (fun kv => depth (snd kv)) m)
  | _ => 0
  end.
(** Its strings and keys are text, its maps are maps, its numbers can be written. *)
Inductive proper {N} (F : numbers N) : json N -> Prop :=
| pr_null : proper F JNull
| pr_bool b : proper F (JBool b)
| pr_num x t : show F x = Some t -> proper F (JNum x)
| pr_str s : valid s -> proper F (JStr s)
| pr_arr l : Forall (proper F) l -> proper F (JArr l)
| pr_obj m : ordered m -> Forall (fun kv => valid (fst kv)) m -> Forall (fun kv => proper F (snd kv)) m -> proper F (JObj m).
(** What strconv promises: a number is written as JSON wants it, without any of < > &, and read back. *)
Definition strconv_ok {N} (F : numbers N) : Prop := forall x t, show F x = Some t -> number_text t /\ read F t = Some x.

(** ** Texts for a web page *)
(** What ends a script or begins markup: < > & and the two line ends U+2028 and U+2029. *)
Definition dangerous (c : Z) : Prop := c = 60 \/ c = 62 \/ c = 38 \/ c = 0x2028 \/ c = 0x2029.
(** UTF-8 without any of them. *)
Inductive harmless : list Z -> Prop :=
| harmless_nil : harmless []
| harmless_char c u s : utf8 c u -> ~ dangerous c -> harmless s -> harmless (u ++ s).
(** Strings and keys are any bytes. *)
Inductive in_bytes {N} : json N -> Prop :=
| by_null : in_bytes JNull
| by_bool b : in_bytes (JBool b)
| by_num x : in_bytes (JNum x)
| by_str s : Forall (fun b => 0 <= b < 256) s -> in_bytes (JStr s)
| by_arr l : Forall in_bytes l -> in_bytes (JArr l)
| by_obj m : Forall (fun kv => Forall (fun b => 0 <= b < 256) (fst kv)) m -> Forall (fun kv => in_bytes (snd kv)) m -> in_bytes (JObj m).
(** A number that strconv reads can be written: it is neither NaN nor infinite. *)
Definition reads_finite {N} (F : numbers N) : Prop := forall t x, read F t = Some x -> exists t', show F x = Some t'.
