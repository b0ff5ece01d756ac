(** What the stored form of a KeyBean means, and what a key store is, without reference to the reader and the writer of the code.

    The wire format is that of the compact protocol specification of Apache Thrift, for everything a later version of the structures may write. *)
From stdpp Require Import gmap list.
From Coq Require Import ZArith.
From Verif Require Import GoInt Thrift_Model Keystore_Model.
Local Open Scope Z_scope.

(** ** Wire format *)

(** [bs] spells the number [n] seven bits at a time, low bits first, the top bit of a byte saying that more follow. *)
Inductive varint : Z -> list Z -> Prop :=
| varint_last n : 0 <= n < 128 -> varint n [n]
| varint_more n b bs : 0 <= n -> b = 128 + n mod 128 -> varint (n / 128) bs -> varint n (b :: bs).
(** A string: its length and its bytes; lengths beyond 100 MiB are not accepted. *)
Definition max_len : Z := 100 * 1024 * 1024.
Definition wstring (s bs : list Z) : Prop :=
  exists l, Z.of_nat (length s) <= max_len /\ varint (Z.of_nat (length s)) l /\ bs = l ++ s.
(** The four bits for a type; a bool field carries its value there. *)
Inductive wtype : ttype -> Z -> Prop :=
| w_true : wtype BOOL 1 | w_false : wtype BOOL 2 | w_byte : wtype BYTE 3 | w_i16 : wtype I16 4 | w_i32 : wtype I32 5 | w_i64 : wtype I64 6
| w_double : wtype DOUBLE 7 | w_string : wtype STRING 8 | w_list : wtype LIST 9 | w_set : wtype SET 10 | w_map : wtype MAP 11 | w_struct : wtype STRUCT 12.
(** The head of a field: the distance to the last id with the type, or the type and the id in zigzag form. *)
Inductive whead (last id : Z) (t : ttype) : list Z -> Prop :=
| head_short c : wtype t c -> 1 <= id - last <= 15 -> whead last id t [16 * (id - last) + c]
| head_long c bs : wtype t c -> varint (if id <? 0 then -2 * id - 1 else 2 * id) bs -> whead last id t (c :: bs).
(** [n] pieces, each as [P] says. *)
Inductive wmany (P : list Z -> Prop) : nat -> list Z -> Prop :=
| many_nil : wmany P 0 []
| many_cons n a b : P a -> wmany P n b -> wmany P (S n) (a ++ b).
(** The fields of a structure, [V] saying what the value of a field looks like. *)
Inductive wfields (V : ttype -> list Z -> Prop) : Z -> list Z -> Prop :=
| fields_stop last : wfields V last [0]
| fields_cons last id t h v r : is_i16 id -> whead last id t h -> V t v -> wfields V id r -> wfields V last (h ++ v ++ r).
(** A value of type [t], nested at most [d] deep; [field]: as the value of a field. *)
Fixpoint wvalue (d : nat) (field : bool) (t : ttype) (bs : list Z) : Prop :=
  match d with
  | O => False
  | S d =>
      match t with
      | STOP => False
      | BOOL => if field then bs = [] else length bs = 1%nat
      | BYTE => length bs = 1%nat
      | I16 | I32 | I64 => exists n, varint n bs
      | DOUBLE => length bs = 8%nat
      | STRING => exists s, wstring s bs
      | STRUCT => wfields (wvalue d true) 0 bs
      | MAP =>
          bs = [0] \/
          exists n kt vt kc vc l r, (0 < n)%nat /\ Z.of_nat n <= max_len /\ wtype kt kc /\ wtype vt vc /\ varint (Z.of_nat n) l /\
            wmany (fun e => exists a b, e = a ++ b /\ wvalue d false kt a /\ wvalue d false vt b) n r /\ bs = l ++ [16 * kc + vc] ++ r
      | SET | LIST =>
          exists n et ec r, wtype et ec /\ wmany (wvalue d false et) n r /\
            (((n < 15)%nat /\ bs = [16 * Z.of_nat n + ec] ++ r) \/
             exists l, Z.of_nat n <= max_len /\ varint (Z.of_nat n) l /\ bs = [240 + ec] ++ l ++ r)
      end
  end.

(** ** Stored users and key beans, with fields of later versions in between *)

(** What a stored user may consist of: its fields in any order, and fields that are none of its own. *)
Inductive uitem := IName (s : str) | IPwd (s : str) | IType (t : Z) | IMore (id : Z) (t : ttype).
Inductive udoc : Z -> list uitem -> list Z -> Prop :=
| udoc_stop last : udoc last [] [0]
| udoc_name last s h v items r : whead last 1 STRING h -> wstring s v -> udoc 1 items r -> udoc last (IName s :: items) (h ++ v ++ r)
| udoc_pwd last s h v items r : whead last 2 STRING h -> wstring s v -> udoc 2 items r -> udoc last (IPwd s :: items) (h ++ v ++ r)
| udoc_type last t h items r : whead last 3 BYTE h -> is_i8 t -> udoc 3 items r -> udoc last (IType t :: items) (h ++ [t mod 256] ++ r)
| udoc_more last id t h v items r : is_i16 id -> ~ (id = 1 /\ t = STRING) -> ~ (id = 2 /\ t = STRING) -> ~ (id = 3 /\ t = BYTE) ->
    whead last id t h -> wvalue 64 true t v -> udoc id items r -> udoc last (IMore id t :: items) (h ++ v ++ r).
(** The last of each field counts; all three must be there. *)
Definition last_some {A} (f : uitem -> option A) (items : list uitem) : option A := last (omap f items).
Definition umeans (items : list uitem) : option user :=
  match last_some (fun i => match i with IName s => Some s | _ => None end) items,
        last_some (fun i => match i with IPwd s => Some s | _ => None end) items,
        last_some (fun i => match i with IType t => Some t | _ => None end) items with
  | Some n, Some p, Some t => Some (User n p t)
  | _, _, _ => None
  end.
(** The same for a key bean: sections 1 to 3 hold users, section 4 strings. *)
Inductive kitem := IUsers (sec : section) (es : list (str * user)) | IOther (es : list (str * str)) | IMoreK (id : Z) (t : ttype).
Definition sec_id (s : section) : Z := match s with Admin => 1 | Client => 2 | Mq => 3 end.
(** A map of [n] entries: nothing but 0 if it is empty. *)
Definition wmap {A} (E : A -> list Z -> Prop) (kc vc : Z) (es : list A) (bs : list Z) : Prop :=
  (es = [] /\ bs = [0]) \/
  exists l parts, es <> [] /\ Z.of_nat (length es) <= max_len /\ varint (Z.of_nat (length es)) l /\ Forall2 E es parts /\
    bs = l ++ [16 * kc + vc] ++ concat parts.
Definition wuser_entry (e : str * user) (bs : list Z) : Prop :=
  exists a b items, wstring e.1 a /\ udoc 0 items b /\ umeans items = Some e.2 /\ bs = a ++ b.
Definition wother_entry (e : str * str) (bs : list Z) : Prop := exists a b, wstring e.1 a /\ wstring e.2 b /\ bs = a ++ b.
Inductive kdoc : Z -> list kitem -> list Z -> Prop :=
| kdoc_stop last : kdoc last [] [0]
| kdoc_users last sec es h v items r : whead last (sec_id sec) MAP h -> wmap wuser_entry 8 12 es v -> kdoc (sec_id sec) items r ->
    kdoc last (IUsers sec es :: items) (h ++ v ++ r)
| kdoc_other last es h v items r : whead last 4 MAP h -> wmap wother_entry 8 8 es v -> kdoc 4 items r ->
    kdoc last (IOther es :: items) (h ++ v ++ r)
| kdoc_more last id t h v items r : is_i16 id -> ~ (1 <= id <= 4 /\ t = MAP) -> whead last id t h -> wvalue 64 true t v -> kdoc id items r ->
    kdoc last (IMoreK id t :: items) (h ++ v ++ r).
(** The map of a list of entries, later ones replacing earlier ones. *)
Definition as_map {V W} (f : V -> W) (es : list (str * V)) : gmap str W := fold_left (fun m e => <[e.1 := f e.2]> m) es ∅.
(** What the items say, from the left; a section that is given again is replaced. *)
Definition kapply (kb : keybean) (i : kitem) : keybean :=
  match i with
  | IUsers sec es => sec_set sec (as_map Some es) kb
  | IOther es => KeyBean (k_admin kb) (k_client kb) (k_mq kb) (Some (as_map id es))
  | IMoreK _ _ => kb
  end.
Definition kmeans (items : list kitem) : keybean := fold_left kapply items (KeyBean None None None None).

(** ** Writing *)

(** [l] lists the entries of [m], each once, in some order: what range does. *)
Definition order_of {V} (m : option (gmap str V)) (l : option (list (str * V))) : Prop :=
  match m, l with None, None => True | Some m, Some l => l ≡ₚ map_to_list m | _, _ => False end.
Definition order_ok (k : keybean) (es : entries) : Prop :=
  order_of (k_admin k) (e_admin es) /\ order_of (k_client k) (e_client es) /\ order_of (k_mq k) (e_mq es) /\ order_of (k_other k) (e_other es).
(** The beans that can be stored: no nil users, strings of bytes, no string and no map beyond 100 MiB, types in the range of int8. *)
Definition short (s : str) : Prop := Z.of_nat (length s) <= max_len /\ is_bytes s.
Definition user_fits (u : option user) : Prop := exists v, u = Some v /\ short (u_name v) /\ short (u_pwd v) /\ is_i8 (u_type v).
Definition users_fit (m : option (gmap str (option user))) : Prop :=
  forall m', m = Some m' -> Z.of_nat (size m') <= max_len /\ forall k u, m' !! k = Some u -> short k /\ user_fits u.
Definition fits (k : keybean) : Prop :=
  users_fit (k_admin k) /\ users_fit (k_client k) /\ users_fit (k_mq k) /\
  forall m, k_other k = Some m -> Z.of_nat (size m) <= max_len /\ forall a b, m !! a = Some b -> short a /\ short b.

(** ** The store *)

(** The four maps after a history: each name has what was put last and not deleted since. *)
Definition put_in (sec : section) (name : str) (c : call) : option (option (str * Z)) :=
  match c with
  | CPut s n pwd ty => if decide (s = sec /\ n = name) then Some (Some (pwd, ty)) else None
  | CDel s n => if decide (s = sec /\ n = name) then Some None else None
  | _ => None
  end.
Definition put_other (key : str) (c : call) : option (option str) :=
  match c with
  | CPutOther k v => if decide (k = key) then Some (Some v) else None
  | CDelOther k => if decide (k = key) then Some None else None
  | _ => None
  end.
(** The last word about a name, if there is one: put with this value, or deleted. *)
Definition last_word {A} (f : call -> option A) (cs : list call) : option A := last (omap f cs).
(** range visits every entry once. *)
Definition visits_all (o : order) : Prop := (forall m, o_users o m ≡ₚ map_to_list m) /\ (forall m, o_other o m ≡ₚ map_to_list m).
(** Compression that can be undone. *)
Definition faithful (z : zfuns) : Prop := forall x, is_bytes x -> f_Zlib z x <> [] /\ f_UnZlib z (f_Zlib z x) = Some x.
(** All four maps are there, so that assigning to them does not panic. *)
Definition ready (k : keybean) : Prop := k_admin k <> None /\ k_client k <> None /\ k_mq k <> None /\ k_other k <> None.
Definition no_load (cs : list call) : Prop := CLoad ∉ cs.
(** A new process finds the file and nothing else. *)
Definition restart (s : store) : store := Store None (file s).
(** Two maps with the same content; Go does not tell an empty map from a nil one when reading. *)
Definition same_map {V} (p q : option (gmap str V)) : Prop := default ∅ p = default ∅ q.
Definition same_bean (p q : keybean) : Prop :=
  same_map (k_admin p) (k_admin q) /\ same_map (k_client p) (k_client q) /\ same_map (k_mq p) (k_mq q) /\ same_map (k_other p) (k_other q).
(** Nothing in the maps that reads like a missing entry. *)
Definition no_nils (k : keybean) : Prop :=
  (forall sec m n, sec_get sec k = Some m -> m !! n <> Some None) /\ (forall m n, k_other k = Some m -> m !! n <> Some []).
