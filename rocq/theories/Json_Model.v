(** util.JsonEncode and util.JsonDecode (util/gob.go:18-26) for values of type any: nil, bool, float64, string, []any and map[string]any.

    encoding/json (Go 1.23) is implemented from its published code (encode.go, scanner.go, decode.go); its scanner, a machine with a stack, is written as a recursive descent,
    which accepts the same texts.  A string is the list of its bytes.  A map is the list of its entries in the order of their keys.  Numbers are of any type: strconv's way to
    write and read them is handed in. *)
From Coq Require Import ZArith List Bool.
From Verif Require Import Uuid_Model.
Import ListNotations.
Local Open Scope Z_scope.

(** strconv.AppendFloat as encode.go uses it, [None] for NaN and the infinities, and strconv.ParseFloat, [None] out of range (encoding/json encode.go, floatEncoder; decode.go, convertNumber; util/gob.go:19,24). *)
Record numbers (N : Type) := Numbers { show : N -> option (list Z); read : list Z -> option N }.
Arguments show {N}. Arguments read {N}.
(** The values (util/gob.go:18,23). *)
Inductive json (N : Type) := JNull | JBool (b : bool) | JNum (x : N) | JStr (s : list Z) | JArr (l : list (json N)) | JObj (m : list (list Z * json N)).
Arguments JNull {N}. Arguments JBool {N}. Arguments JNum {N}. Arguments JStr {N}. Arguments JArr {N}. Arguments JObj {N}.

(** Continuation bytes of UTF-8 between [lo] and [hi] (unicode/utf8, DecodeRune; util/gob.go:19,24). *)
Definition in_ (lo hi b : Z) : bool := (lo <=? b) && (b <=? hi).
(** The length of the character that the bytes begin with, 0 if they begin with none (unicode/utf8, DecodeRune; util/gob.go:19,24). *)
Definition rune_len (l : list Z) : nat :=
  match l with
  | [] => 0
  | a :: r =>
      if in_ 0 127 a then 1
      else match r with
      | [] => 0
      | b :: r =>
          if in_ 0xC2 0xDF a && in_ 128 191 b then 2
          else match r with
          | [] => 0
          | c :: r =>
              let lo := if a =? 0xE0 then 0xA0 else 128 in let hi := if a =? 0xED then 0x9F else 191 in
              if in_ 0xE0 0xEF a && in_ lo hi b && in_ 128 191 c then 3
              else match r with
              | [] => 0
              | d :: _ =>
                  let lo := if a =? 0xF0 then 0x90 else 128 in let hi := if a =? 0xF4 then 0x8F else 191 in
                  if in_ 0xF0 0xF4 a && in_ lo hi b && in_ 128 191 c && in_ 128 191 d then 4 else 0
              end
          end
      end
  end.

(** htmlSafeSet (encoding/json tables.go; util/gob.go:19). *)
Definition plain (b : Z) : bool := in_ 32 127 b && negb ((b =? 34) || (b =? 38) || (b =? 60) || (b =? 62) || (b =? 92)).
(** The escapes of the other bytes below 128 (encoding/json encode.go, appendString; util/gob.go:19). *)
Definition escape (b : Z) : list Z :=
  if (b =? 92) || (b =? 34) then [92; b]
  else if b =? 8 then [92; 98]
  else if b =? 12 then [92; 102]
  else if b =? 10 then [92; 110]
  else if b =? 13 then [92; 114]
  else if b =? 9 then [92; 116]
  else [92; 117; 48; 48; hexdigit (b / 16); hexdigit (b mod 16)].
(** The loop of appendString; [n] is the length of [s] or more (encoding/json encode.go, appendString; util/gob.go:19). *)
Fixpoint body (n : nat) (s : list Z) : list Z :=
  match n, s with
  | S n, b :: r =>
      if in_ 0 127 b then (if plain b then [b] else escape b) ++ body n r
      else match rune_len s with
      | O => [92; 117; 102; 102; 102; 100] ++ body n r
      | k =>
          let c := firstn k s in
          (if list_eq_dec Z.eq_dec c [0xE2; 0x80; 0xA8] then [92; 117; 50; 48; 50; 56]
           else if list_eq_dec Z.eq_dec c [0xE2; 0x80; 0xA9] then [92; 117; 50; 48; 50; 57] else c) ++ body n (skipn k s)
      end
  | _, _ => []
  end.
(** A string in quotes (encoding/json encode.go, appendString; util/gob.go:19). *)
Definition quote (s : list Z) : list Z := 34 :: body (length s) s ++ [34].
(** Texts with commas between them (encoding/json encode.go, arrayEncoder and mapEncoder; util/gob.go:19). *)
Fixpoint commas (l : list (list Z)) : list Z :=
  match l with
  | [] => []
  | [t] => t
  | t :: r => t ++ 44 :: commas r
  end.
(** All or nothing: an error anywhere is an error of Marshal (encoding/json encode.go, e.error; util/gob.go:19). *)
Fixpoint sequence {A} (l : list (option A)) : option (list A) :=
  match l with
  | [] => Some []
  | None :: _ => None
  | Some x :: r => option_map (cons x) (sequence r)
  end.

Section json.
Context {N : Type} (F : numbers N).
(** json.Marshal, [None] for an error (encoding/json encode.go; util/gob.go:19). *)
Fixpoint Marshal (v : json N) : option (list Z) :=
  match v with
  | JNull => Some [110; 117; 108; 108]
  | JBool true => Some [116; 114; 117; 101]
  | JBool false => Some [102; 97; 108; 115; 101]
  | JNum x => show F x
  | JStr s => Some (quote s)
  | JArr l => option_map (fun ts => 91 :: commas ts ++ [93]) (sequence (map Marshal l))
  | JObj m => option_map (fun ts => 123 :: commas ts ++ [125]) (sequence (map (fun kv => option_map (fun t => quote (fst kv) ++ 58 :: t) (Marshal (snd kv))) m))
  end.
(** util/gob.go:18-21 [JsonEncode]; the error is dropped, the slice is then nil. *)
Definition JsonEncode (v : json N) : list Z := match Marshal v with Some t => t | None => [] end.

(** isSpace (encoding/json scanner.go; util/gob.go:24). *)
Definition space (b : Z) : bool := (b =? 32) || (b =? 9) || (b =? 13) || (b =? 10).
(** White space skipped (encoding/json scanner.go; util/gob.go:24). *)
Fixpoint skip (l : list Z) : list Z := match l with [] => [] | b :: r => if space b then skip r else l end.
(** A decimal digit (encoding/json scanner.go, state1; util/gob.go:24). *)
Definition digit (b : Z) : bool := in_ 48 57 b.
(** The digits at the beginning, and the rest (encoding/json scanner.go, state0, state1; util/gob.go:24). *)
Fixpoint digits (l : list Z) : list Z * list Z :=
  match l with
  | [] => ([], [])
  | b :: r => if digit b then let '(d, q) := digits r in (b :: d, q) else ([], l)
  end.
(** At least one digit (encoding/json scanner.go, stateDot, stateESign; util/gob.go:24). *)
Definition digits1 (l : list Z) : option (list Z * list Z) := match digits l with ([], _) => None | p => Some p end.
(** An optional byte out of [set] (encoding/json scanner.go, stateNeg, stateE; util/gob.go:24). *)
Definition opt (set : list Z) (l : list Z) : list Z * list Z :=
  match l with b :: r => if existsb (Z.eqb b) set then ([b], r) else ([], l) | [] => ([], []) end.
(** The number at the beginning, and the rest (encoding/json scanner.go, stateBeginValue to stateE0; util/gob.go:24). *)
Definition number (l : list Z) : option (list Z * list Z) :=
  let '(sg, l) := opt [45] l in
  match (match opt [48] l with ([], l) => digits1 l | p => Some p end) with
  | None => None
  | Some (i, l) =>
      match (match opt [46] l with ([], l) => Some ([], l) | (p, l) => option_map (fun dq => (p ++ fst dq, snd dq)) (digits1 l) end) with
      | None => None
      | Some (f, l) =>
          match (match opt [101; 69] l with
                 | ([], l) => Some ([], l)
                 | (e, l) => let '(es, l) := opt [43; 45] l in option_map (fun dq => (e ++ es ++ fst dq, snd dq)) (digits1 l)
                 end) with
          | None => None
          | Some (e, l) => Some (sg ++ i ++ f ++ e, l)
          end
      end
  end.

(** utf8.AppendRune for a code point (unicode/utf8; util/gob.go:24). *)
Definition runeBytes (c : Z) : list Z :=
  if c <? 0x80 then [c]
  else if c <? 0x800 then [0xC0 + c / 64; 128 + c mod 64]
  else if c <? 0x10000 then [0xE0 + c / 4096; 128 + c / 64 mod 64; 128 + c mod 64]
  else [0xF0 + c / 262144; 128 + c / 4096 mod 64; 128 + c / 64 mod 64; 128 + c mod 64].
(** getu4 after the backslash and the u: the number that four hex digits give (encoding/json decode.go; util/gob.go:24). *)
Definition hex4 (l : list Z) : option Z :=
  match l with
  | a :: b :: c :: d :: _ => match unhex a, unhex b, unhex c, unhex d with Some x, Some y, Some z, Some w => Some (((x * 16 + y) * 16 + z) * 16 + w) | _, _, _, _ => None end
  | _ => None
  end.
(** A one-letter escape (encoding/json decode.go, unquoteBytes; util/gob.go:24). *)
Definition letter (b : Z) : option Z :=
  if (b =? 34) || (b =? 92) || (b =? 47) then Some b
  else if b =? 98 then Some 8 else if b =? 102 then Some 12 else if b =? 110 then Some 10 else if b =? 114 then Some 13 else if b =? 116 then Some 9 else None.
(** The rest of a word (encoding/json scanner.go, stateT to stateNul; util/gob.go:24). *)
Fixpoint word (w l : list Z) : option (list Z) :=
  match w, l with
  | [], _ => Some l
  | a :: w, b :: l => if a =? b then word w l else None
  | _, [] => None
  end.
(** The rest of a string after its first quote: what it means, and what follows the last quote.  The scan for the end (encoding/json scanner.go, stateInString) and the
    translation (decode.go, unquoteBytes) are one pass here; [n] is the length of [l] or more (util/gob.go:24). *)
Fixpoint str (n : nat) (l : list Z) : option (list Z * list Z) :=
  match n, l with
  | S n, b :: r =>
      let and_then (c : list Z) (r : list Z) := option_map (fun p => (c ++ fst p, snd p)) (str n r) in
      if b =? 34 then Some ([], r)
      else if b <? 32 then None
      else if b =? 92 then
        match r with
        | [] => None
        | e :: r =>
            if e =? 117 then
              match hex4 r with
              | None => None
              | Some u =>
                  let r := skipn 4 r in
                  if in_ 0xD800 0xDFFF u then
                    let pair := match word [92; 117] r with Some q => match hex4 q with Some lo => if in_ 0xD800 0xDBFF u && in_ 0xDC00 0xDFFF lo then Some (0x10000 + (u - 0xD800) * 1024 + (lo - 0xDC00), skipn 4 q) else None | None => None end | None => None end in
                    match pair with
                    | Some (c, q) => and_then (runeBytes c) q
                    | None => and_then [0xEF; 0xBF; 0xBD] r
                    end
                  else and_then (runeBytes u) r
              end
            else match letter e with Some c => and_then [c] r | None => None end
        end
      else match rune_len l with
      | O => and_then [0xEF; 0xBF; 0xBD] r
      | k => and_then (firstn k l) (skipn k l)
      end
  | _, _ => None
  end.

(** Strings in the order of their bytes, which is the order of keys that Marshal writes (encoding/json encode.go, mapEncoder; util/gob.go:19). *)
Fixpoint before (a b : list Z) : bool :=
  match a, b with
  | [], _ :: _ => true
  | x :: a, y :: b => (x <? y) || ((x =? y) && before a b)
  | _, [] => false
  end.
(** m[k] = v (encoding/json decode.go, objectInterface; util/gob.go:24). *)
Fixpoint put (k : list Z) (v : json N) (m : list (list Z * json N)) : list (list Z * json N) :=
  match m with
  | [] => [(k, v)]
  | (k', v') :: r => if before k k' then (k, v) :: m else if before k' k then (k', v') :: put k v r else (k, v) :: r
  end.
(** A value, nested at most [d] deep, and the rest; the elements of an array from one element on; the members of an object from one member on.  [n] is the length of [l] or
    more (encoding/json scanner.go, decode.go, valueInterface, arrayInterface, objectInterface; util/gob.go:24).  A number out of range is an error; the value that
    Unmarshal leaves beside an error is not modelled. *)
Fixpoint value (n : nat) (d : Z) (l : list Z) : option (json N * list Z) :=
  match n with
  | O => None
  | S n =>
      match skip l with
      | [] => None
      | b :: r =>
          if b =? 123 then if d <=? 0 then None else
            match word [125] (skip r) with Some q => Some (JObj [], q) | None => option_map (fun p => (JObj (fst p), snd p)) (members n (d - 1) [] r) end
          else if b =? 91 then if d <=? 0 then None else
            match word [93] (skip r) with Some q => Some (JArr [], q) | None => option_map (fun p => (JArr (fst p), snd p)) (elements n (d - 1) r) end
          else if b =? 34 then option_map (fun p => (JStr (fst p), snd p)) (str (length r) r)
          else if b =? 116 then option_map (fun q => (JBool true, q)) (word [114; 117; 101] r)
          else if b =? 102 then option_map (fun q => (JBool false, q)) (word [97; 108; 115; 101] r)
          else if b =? 110 then option_map (fun q => (JNull, q)) (word [117; 108; 108] r)
          else match number (b :: r) with
          | Some (t, q) => option_map (fun x => (JNum x, q)) (read F t)
          | None => None
          end
      end
  end
with elements (n : nat) (d : Z) (l : list Z) : option (list (json N) * list Z) :=
  match n with
  | O => None
  | S n =>
      match value n d l with
      | None => None
      | Some (v, r) =>
          match word [93] (skip r) with
          | Some q => Some ([v], q)
          | None => match word [44] (skip r) with Some q => option_map (fun p => (v :: fst p, snd p)) (elements n d q) | None => None end
          end
      end
  end
with members (n : nat) (d : Z) (m : list (list Z * json N)) (l : list Z) : option (list (list Z * json N) * list Z) :=
  match n with
  | O => None
  | S n =>
      match word [34] (skip l) with
      | None => None
      | Some r =>
          match str (length r) r with
          | None => None
          | Some (k, r) =>
              match word [58] (skip r) with
              | None => None
              | Some r =>
                  match value n d r with
                  | None => None
                  | Some (v, r) =>
                      match word [125] (skip r) with
                      | Some q => Some (put k v m, q)
                      | None => match word [44] (skip r) with Some q => members n d (put k v m) q | None => None end
                      end
                  end
              end
          end
      end
  end.
(** maxNestingDepth (encoding/json scanner.go; util/gob.go:24). *)
Definition maxNestingDepth : Z := 10000.
(** util/gob.go:23-26 [JsonDecode] for T = any: the value, or [None] for an error. *)
Definition JsonDecode (bs : list Z) : option (json N) :=
  match value (2 * length bs + 2) maxNestingDepth bs with
  | Some (v, r) => match skip r with [] => Some v | _ => None end
  | None => None
  end.
End json.
