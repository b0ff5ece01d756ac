(** Model of keystore/store.go (thrift structures), keystore/bin.go (the file) and keystore/keystore.go (storeAdmin). *)
From stdpp Require Import gmap list.
From Coq Require Import ZArith Lia.
From Verif Require Import GoInt Thrift_Model Util_Model.
From Verif Require Compress_Model.
Local Open Scope Z_scope.

(** Go strings as their bytes. *)
Notation str := (list Z).

(** keystore/store.go:31-35 [UserBean]. *)
Record user := User { u_name : str; u_pwd : str; u_type : Z }.
(** keystore/store.go:226-231 [KeyBean]; a nil map is [None].  The maps to *UserBean may hold nil pointers.  Simplification: a pointer is the
    value it points to; nobody in this package changes a UserBean once it is in a map. *)
Record keybean := KeyBean {
  k_admin : option (gmap str (option user));
  k_client : option (gmap str (option user));
  k_mq : option (gmap str (option user));
  k_other : option (gmap str str)
}.

(** ** Reading *)

(** The local state of UserBean.Read: the last field id, the fields and the three isset flags (keystore/store.go:58-60, 128-147). *)
Record urd := Urd { ur_last : Z; ur_name : str; ur_pwd : str; ur_type : Z; ur_n : bool; ur_p : bool; ur_t : bool }.
(** One round of the loop of UserBean.Read (keystore/store.go:63-109), with ReadField1-3 (126-152). *)
Definition UserBean_field (s : urd) : reader (urd + urd) :=
  bind (ReadFieldBegin (ur_last s)) (fun '(ty, id) =>
    match ty with
    | STOP => ret (inr s)
    | _ =>
        match id, ty with
        | 1, STRING => do v <- ReadString; ret (inl (Urd id v (ur_pwd s) (ur_type s) true (ur_p s) (ur_t s)))
        | 2, STRING => do v <- ReadString; ret (inl (Urd id (ur_name s) v (ur_type s) (ur_n s) true (ur_t s)))
        | 3, BYTE => do v <- ReadByte; ret (inl (Urd id (ur_name s) (ur_pwd s) v (ur_n s) (ur_p s) true))
        | _, _ => do _ <- SkipDefault ty; ret (inl (Urd id (ur_name s) (ur_pwd s) (ur_type s) (ur_n s) (ur_p s) (ur_t s)))
        end
    end).
(** keystore/store.go:53-124 [UserBean.Read] into a new UserBean; ReadStructBegin starts the field ids at 0. *)
Definition UserBean_Read : reader user :=
  do s <- loop UserBean_field (Urd 0 [] [] 0 false false false);
  if negb (ur_n s) then fail else if negb (ur_p s) then fail else if negb (ur_t s) then fail
  else ret (User (ur_name s) (ur_pwd s) (ur_type s)).

(** keystore/store.go:341-365, 367-391, 393-417 [KeyBean.ReadField1] to [ReadField3]: the map read. *)
Definition KeyBean_ReadUsers : reader (gmap str (option user)) :=
  bind ReadMapBegin (fun '(_, _, size) =>
    times (Z.to_nat size) (fun m => do k <- ReadString; do v <- UserBean_Read; ret (<[k := Some v]> m)) ∅).
(** keystore/store.go:419-445 [KeyBean.ReadField4]. *)
Definition KeyBean_ReadOther : reader (gmap str str) :=
  bind ReadMapBegin (fun '(_, _, size) =>
    times (Z.to_nat size) (fun m => do k <- ReadString; do v <- ReadString; ret (<[k := v]> m)) ∅).
(** One round of the loop of KeyBean.Read (keystore/store.go:280-333); the state is the last field id and the KeyBean. *)
Definition KeyBean_field (s : Z * keybean) : reader ((Z * keybean) + keybean) :=
  let '(last, kb) := s in
  bind (ReadFieldBegin last) (fun '(ty, id) =>
    match ty with
    | STOP => ret (inr kb)
    | _ =>
        match id, ty with
        | 1, MAP => do m <- KeyBean_ReadUsers; ret (inl (id, KeyBean (Some m) (k_client kb) (k_mq kb) (k_other kb)))
        | 2, MAP => do m <- KeyBean_ReadUsers; ret (inl (id, KeyBean (k_admin kb) (Some m) (k_mq kb) (k_other kb)))
        | 3, MAP => do m <- KeyBean_ReadUsers; ret (inl (id, KeyBean (k_admin kb) (k_client kb) (Some m) (k_other kb)))
        | 4, MAP => do m <- KeyBean_ReadOther; ret (inl (id, KeyBean (k_admin kb) (k_client kb) (k_mq kb) (Some m)))
        | _, _ => do _ <- SkipDefault ty; ret (inl (id, kb))
        end
    end).
(** keystore/store.go:273-339 [KeyBean.Read] into a new KeyBean. *)
Definition KeyBean_Read : reader keybean := loop KeyBean_field (0, KeyBean None None None None).
(** util/gob.go:54-59 [TDecode] of a KeyBean: bytes behind it are not looked at; what is left in the KeyBean after an error is not modelled,
    its only caller drops it (keystore/keystore.go:30-35). *)
Definition TDecode (bs : list Z) : option keybean := match KeyBean_Read bs with ROk kb _ => Some kb | _ => None end.

(** ** Writing *)

(** keystore/store.go:154-197 [UserBean.Write]; a nil pointer writes a structure without fields. *)
Definition UserBean_Write (u : option user) : list Z :=
  match u with
  | Some u =>
      WriteFieldBegin 0 1 C_BINARY ++ WriteString (u_name u) ++
      WriteFieldBegin 1 2 C_BINARY ++ WriteString (u_pwd u) ++
      WriteFieldBegin 2 3 C_BYTE ++ [u8 (u_type u)]
  | None => []
  end ++ WriteFieldStop.
(** The entries of the four maps in the order in which range visits them (keystore/store.go:470,493,516,539): any order. *)
Record entries := Entries {
  e_admin : option (list (str * option user));
  e_client : option (list (str * option user));
  e_mq : option (list (str * option user));
  e_other : option (list (str * str))
}.
(** keystore/store.go:463-484, 486-507, 509-530 [KeyBean.writeField1] to [writeField3]: the bytes and the last field id written. *)
Definition KeyBean_writeUsers (last id : Z) (m : option (list (str * option user))) : list Z * Z :=
  match m with
  | Some es =>
      (WriteFieldBegin last id C_MAP ++ WriteMapBegin C_BINARY C_STRUCT (length es) ++
         concat (map (fun e => WriteString e.1 ++ UserBean_Write e.2) es), id)
  | None => ([], last)
  end.
(** keystore/store.go:532-552 [KeyBean.writeField4]. *)
Definition KeyBean_writeOther (last id : Z) (m : option (list (str * str))) : list Z * Z :=
  match m with
  | Some es =>
      (WriteFieldBegin last id C_MAP ++ WriteMapBegin C_BINARY C_BINARY (length es) ++
         concat (map (fun e => WriteString e.1 ++ WriteString e.2) es), id)
  | None => ([], last)
  end.
(** keystore/store.go:447-461 [KeyBean.Write] and util/gob.go:45-52 [TEncode], for one order of iteration; writing to memory does not fail. *)
Definition TEncode (es : entries) : list Z :=
  let '(b1, l1) := KeyBean_writeUsers 0 1 (e_admin es) in
  let '(b2, l2) := KeyBean_writeUsers l1 2 (e_client es) in
  let '(b3, l3) := KeyBean_writeUsers l2 3 (e_mq es) in
  let '(b4, _) := KeyBean_writeOther l3 4 (e_other es) in
  b1 ++ b2 ++ b3 ++ b4 ++ WriteFieldStop.

(** ** Comparing *)

(** keystore/store.go:199-209 [UserBean.Equals]; equal pointers are equal values here. *)
Definition UserBean_Equals (p q : option user) : bool :=
  match p, q with
  | None, None => true
  | Some p, Some q =>
      if decide (u_name p = u_name q) then if decide (u_pwd p = u_pwd q) then if decide (u_type p = u_type q) then true else false else false else false
  | _, _ => false
  end.
(** The length of a map that may be nil (keystore/store.go:560). *)
Definition msize {V} (m : option (gmap str V)) : nat := match m with Some m => size m | None => 0%nat end.
(** One of the three comparisons of maps in KeyBean.Equals (keystore/store.go:560-574): a missing key reads as nil. *)
Definition users_Equals (p q : option (gmap str (option user))) : bool :=
  (msize p =? msize q)%nat &&
  forallb (fun '(k, v) => UserBean_Equals v (match q with Some q => default None (q !! k) | None => None end))
    (match p with Some p => map_to_list p | None => [] end).
(** The last comparison of KeyBean.Equals (keystore/store.go:575-579): a missing key reads as "". *)
Definition other_Equals (p q : option (gmap str str)) : bool :=
  (msize p =? msize q)%nat &&
  forallb (fun '(k, v) => bool_decide (v = match q with Some q => default [] (q !! k) | None => [] end))
    (match p with Some p => map_to_list p | None => [] end).
(** keystore/store.go:554-581 [KeyBean.Equals] of two KeyBeans that are not nil. *)
Definition KeyBean_Equals (p q : keybean) : bool :=
  users_Equals (k_admin p) (k_admin q) && users_Equals (k_client p) (k_client q) && users_Equals (k_mq p) (k_mq q) &&
  other_Equals (k_other p) (k_other q).

(** ** The file (keystore/bin.go)

    The file is its content.  util.Zlib and util.UnZlib are parameters: Zlib's result (its error is nil), and UnZlib's result, None if it returns an
    error. Reading and writing the file does not fail. *)
Record zfuns := Zfuns { f_Zlib : list Z -> list Z; f_UnZlib : list Z -> option (list Z) }.
(** util.Zlib and util.UnZlib as they are (util/compress.go:18-43), for a codec. *)
Definition util_z (c : Compress_Model.codec) : zfuns :=
  Zfuns (fun x => (Compress_Model.uZlib c x).1) (fun x => let '(d, e) := Compress_Model.uUnZlib c x in if e then None else Some d).
(** What they would be if util.Zlib closed its writer, as compress.Zlib does (compress/compress.go:18-29; util/compress.go:33-43). *)
Definition closed_z (c : Compress_Model.codec) : zfuns :=
  Zfuns (fun x => (Compress_Model.Zlib c x).1) (fun x => let '(d, e) := Compress_Model.uUnZlib c x in if e then None else Some d).
(** The contents the file goes through during [_keyStore.Write] (keystore/bin.go:44-55): untouched, truncated, then filled from the front. *)
Definition Write_states (z : zfuns) (old bs : list Z) : list (list Z) :=
  old :: [] :: map (fun n => firstn n (f_Zlib z bs)) (seq 1 (length (f_Zlib z bs))).
(** keystore/bin.go:44-55 [_keyStore.Write]: the content afterwards. *)
Definition ks_Write (z : zfuns) (bs : list Z) : list Z := f_Zlib z bs.
(** keystore/bin.go:57-71 [_keyStore.Read]: None if it returns an error. *)
Definition ks_Read (z : zfuns) (file : list Z) : option (list Z) :=
  match file with
  | [] => None
  | _ => match f_UnZlib z file with Some obs => Some obs | None => Some file end
  end.

(** ** storeAdmin (keystore/keystore.go) *)

(** keystore/keystore.go:16-19 [storeAdmin] with the file behind the global KeyStore; [kb] is nil before Load.  All methods hold the mutex. *)
Record store := Store { kb : option keybean; file : list Z }.
(** The three sections of users. *)
Inductive section := Admin | Client | Mq.
(** Sections can be compared (they are names in the code: keystore/keystore.go:41,74,107). *)
#[global] Instance section_eq : EqDecision section. Proof. solve_decision. Defined.
(** The map of a section (keystore/keystore.go:41,74,107). *)
Definition sec_get (s : section) (k : keybean) : option (gmap str (option user)) :=
  match s with Admin => k_admin k | Client => k_client k | Mq => k_mq k end.
(** Changing the map of a section (keystore/keystore.go:41,74,107). *)
Definition sec_set (s : section) (m : gmap str (option user)) (k : keybean) : keybean :=
  match s with
  | Admin => KeyBean (Some m) (k_client k) (k_mq k) (k_other k)
  | Client => KeyBean (k_admin k) (Some m) (k_mq k) (k_other k)
  | Mq => KeyBean (k_admin k) (k_client k) (Some m) (k_other k)
  end.
(** An order of iteration of range, for both kinds of maps (keystore/store.go:470,539). *)
Record order := Order { o_users : gmap str (option user) -> list (str * option user); o_other : gmap str str -> list (str * str) }.
(** What TEncode is given: the entries in this order (keystore/store.go:470,493,516,539). *)
Definition listed (o : order) (k : keybean) : entries :=
  Entries (o_users o <$> k_admin k) (o_users o <$> k_client k) (o_users o <$> k_mq k) (o_other o <$> k_other k).
(** "KeyStore.Write(util.TEncode(this.kb))" (keystore/keystore.go:42). *)
Definition persist (z : zfuns) (o : order) (k : keybean) : store := Store (Some k) (ks_Write z (TEncode (listed o k))).

(** keystore/keystore.go:25-36 [Load]. *)
Definition Load (z : zfuns) (s : store) : store :=
  let empty := KeyBean (Some ∅) (Some ∅) (Some ∅) (Some ∅) in
  match ks_Read z (file s) with
  | Some bs => match TDecode bs with Some k => Store (Some k) (file s) | None => Store (Some empty) (file s) end
  | None => Store (Some empty) (file s)
  end.
(** keystore/keystore.go:38-43, 71-76, 104-109 [PutAdmin], [PutClient], [PutMq]; None is a panic: a nil KeyBean or a nil map. *)
Definition PutUser (z : zfuns) (o : order) (sec : section) (name pwd : str) (ty : Z) (s : store) : option store :=
  match kb s with
  | Some k =>
      match sec_get sec k with
      | Some m => Some (persist z o (sec_set sec (<[name := Some (User name (Md5Str pwd) ty)]> m) k))
      | None => None
      end
  | None => None
  end.
(** keystore/keystore.go:45-52, 78-85, 111-118 [DelAdmin], [DelClient], [DelMq]. *)
Definition DelUser (z : zfuns) (o : order) (sec : section) (name : str) (s : store) : option store :=
  match kb s with
  | Some k =>
      match sec_get sec k with
      | Some m =>
          match m !! name with
          | Some _ => Some (persist z o (sec_set sec (delete name m) k))
          | None => Some s
          end
      | None => Some s
      end
  | None => None
  end.
(** keystore/keystore.go:54-59, 87-92, 120-125 [GetAdmin], [GetClient], [GetMq]: the value (nil if missing) and ok. *)
Definition GetUser (sec : section) (name : str) (s : store) : option (option user * bool) :=
  match kb s with
  | Some k => match sec_get sec k with
              | Some m => match m !! name with Some u => Some (u, true) | None => Some (None, false) end
              | None => Some (None, false)
              end
  | None => None
  end.
(** keystore/keystore.go:61-69, 94-102, 127-135 [AdminList], [ClientList], [MqList]. *)
Definition UserList (o : order) (sec : section) (s : store) : option (list str) :=
  match kb s with
  | Some k => match sec_get sec k with Some m => Some (map fst (o_users o m)) | None => Some [] end
  | None => None
  end.
(** keystore/keystore.go:137-142 [PutOther]. *)
Definition PutOther (z : zfuns) (o : order) (key value : str) (s : store) : option store :=
  match kb s with
  | Some k => match k_other k with
              | Some m => Some (persist z o (KeyBean (k_admin k) (k_client k) (k_mq k) (Some (<[key := value]> m))))
              | None => None
              end
  | None => None
  end.
(** keystore/keystore.go:144-151 [DelOther]. *)
Definition DelOther (z : zfuns) (o : order) (key : str) (s : store) : option store :=
  match kb s with
  | Some k => match k_other k with
              | Some m => match m !! key with
                          | Some _ => Some (persist z o (KeyBean (k_admin k) (k_client k) (k_mq k) (Some (delete key m))))
                          | None => Some s
                          end
              | None => Some s
              end
  | None => None
  end.
(** keystore/keystore.go:153-158 [GetOther]: the value ("" if missing) and ok. *)
Definition GetOther (key : str) (s : store) : option (str * bool) :=
  match kb s with
  | Some k => match k_other k with
              | Some m => match m !! key with Some v => Some (v, true) | None => Some ([], false) end
              | None => Some ([], false)
              end
  | None => None
  end.
(** The calls of storeAdmin that change something (keystore/keystore.go:25-158). *)
Inductive call :=
| CLoad
| CPut (sec : section) (name pwd : str) (ty : Z)
| CDel (sec : section) (name : str)
| CPutOther (key value : str)
| CDelOther (key : str).
(** One call with the order of iteration it met (keystore/keystore.go:25-158). *)
Definition do_call (z : zfuns) (s : store) (c : order * call) : option store :=
  match c.2 with
  | CLoad => Some (Load z s)
  | CPut sec name pwd ty => PutUser z c.1 sec name pwd ty s
  | CDel sec name => DelUser z c.1 sec name s
  | CPutOther key value => PutOther z c.1 key value s
  | CDelOther key => DelOther z c.1 key s
  end.
(** A history of calls (keystore/keystore.go:25-158); None once one has panicked. *)
Fixpoint do_calls (z : zfuns) (s : store) (cs : list (order * call)) : option store :=
  match cs with [] => Some s | c :: cs => match do_call z s c with Some s => do_calls z s cs | None => None end end.
