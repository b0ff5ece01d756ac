(** Model of the small helpers of util/encode.go: Concat, Md5Str, Sha1Str, FNVHash32, FNVHash64, RandUint, RandInt64Strict, IsFileExist. *)
From stdpp Require Import list.
From Coq Require Import ZArith Lia.
From Verif Require Import GoInt Hash_Model.
Local Open Scope Z_scope.

(** util/encode.go:31-37 [Concat]: a strings.Builder holds the bytes written so far. *)
Fixpoint concat_loop (builder : list Z) (ss : list (list Z)) : list Z :=
  match ss with [] => builder | v :: ss => concat_loop (builder ++ v) ss end.
(** util/encode.go:31-37 [Concat]. *)
Definition Concat (ss : list (list Z)) : list Z := concat_loop [] ss.

(** The digit table "0123456789abcdef" of encoding/hex (hex.EncodeToString, called at util/encode.go:46,56). *)
Definition hextable : list Z := [48; 49; 50; 51; 52; 53; 54; 55; 56; 57; 97; 98; 99; 100; 101; 102].
(** hex.EncodeToString (encoding/hex; util/encode.go:46,56). *)
Fixpoint EncodeToString (bs : list Z) : list Z :=
  match bs with
  | [] => []
  | b :: bs => nth (Z.to_nat (Z.shiftr b 4)) hextable 0 :: nth (Z.to_nat (Z.land b 15)) hextable 0 :: EncodeToString bs
  end.
(** strings.ToUpper for ASCII strings (package strings; util/encode.go:46,56). *)
Definition ToUpper (s : list Z) : list Z := map (fun c => if (97 <=? c) && (c <=? 122) then c - 32 else c) s.
(** util/encode.go:45-47 [Md5Str] with MD5 (39-43). *)
Definition Md5Str (s : list Z) : list Z := ToUpper (EncodeToString (md5 s)).
(** util/encode.go:55-57 [Sha1Str] with SHA1 (49-53). *)
Definition Sha1Str (s : list Z) : list Z := ToUpper (EncodeToString (sha1 s)).

(** fnv.New32a, Write, Sum32 (hash/fnv; util/encode.go:82-86 [FNVHash32]). *)
Definition FNVHash32 (data : list Z) : Z := fold_left (fun h c => u32 (Z.lxor h c * 16777619)) data 2166136261.
(** fnv.New64a, Write, Sum64 (hash/fnv; util/encode.go:88-92 [FNVHash64]). *)
Definition FNVHash64 (data : list Z) : Z := fold_left (fun h c => u64 (Z.lxor h c * 1099511628211)) data 14695981039346656037.

(** What a call can come to: a value, a panic, or a source that has run dry (the lists of random values below are finite;
    the real sources never end). *)
Inductive outcome (A : Type) := Val (a : A) | Panics | Dry.
Arguments Val {A} a. Arguments Panics {A}. Arguments Dry {A}.

(** math/rand Int31n (rand.go), called through Intn at util/encode.go:95; [src] are the values of Source.Int63, Int31 being
    their top 31 bits. *)
Fixpoint int31n_loop (n mx : Z) (src : list Z) : outcome Z :=
  match src with
  | [] => Dry
  | s :: src => let v := Z.shiftr s 32 in if mx <? v then int31n_loop n mx src else Val (v mod n)
  end.
(** math/rand Int31n (rand.go; util/encode.go:95). *)
Definition int31n (n : Z) (src : list Z) : outcome Z :=
  if Z.land n (n - 1) =? 0 then match src with [] => Dry | s :: _ => Val (Z.land (Z.shiftr s 32) (n - 1)) end
  else int31n_loop n (2^31 - 1 - (2^31) mod n) src.
(** math/rand Int63n (rand.go; util/encode.go:95). *)
Fixpoint int63n_loop (n mx : Z) (src : list Z) : outcome Z :=
  match src with
  | [] => Dry
  | v :: src => if mx <? v then int63n_loop n mx src else Val (v mod n)
  end.
(** math/rand Int63n (rand.go; util/encode.go:95). *)
Definition int63n (n : Z) (src : list Z) : outcome Z :=
  if Z.land n (n - 1) =? 0 then match src with [] => Dry | s :: _ => Val (Z.land s (n - 1)) end
  else int63n_loop n (2^63 - 1 - (2^63) mod n) src.
(** math/rand Intn (rand.go; util/encode.go:95). *)
Definition Intn (n : Z) (src : list Z) : outcome Z :=
  if n <=? 0 then Panics else if n <=? 2^31 - 1 then int31n n src else int63n n src.
(** util/encode.go:94-96 [RandUint]: uint(r.Intn(int(i))), int having 64 bits; the seed only selects the source. *)
Definition RandUint (i : Z) (src : list Z) : outcome Z :=
  match Intn (i64 i) src with Val v => Val (u64 v) | Panics => Panics | Dry => Dry end.

(** The number of bytes read and the bits kept of the first one by crypto/rand.Int, for n = max - 1 > 0 (crypto/rand util.go;
    util/encode.go:99). *)
Definition rand_len (n : Z) : nat := Z.to_nat ((Z.log2 n + 1 + 7) / 8).
(** See [rand_len] (crypto/rand util.go; util/encode.go:99). *)
Definition rand_mask (n : Z) : Z := let b := (Z.log2 n + 1) mod 8 in 2 ^ (if b =? 0 then 8 else b) - 1.
(** The number big.Int.SetBytes makes of a block read, its first byte masked (crypto/rand util.go; util/encode.go:99). *)
Definition masked_val (mask : Z) (blk : list Z) : Z :=
  match blk with [] => 0 | b :: r => be_val (Z.land b mask :: r) end.
(** crypto/rand.Int: blocks are read until the number is below max; a read that fails ends it with an error (crypto/rand
    util.go; util/encode.go:99).  The blocks stand for what rand.Reader returns, [None] for an error. *)
Fixpoint rand_Int_loop (mx mask : Z) (blks : list (option (list Z))) : outcome (Z * bool) :=
  match blks with
  | [] => Dry
  | None :: _ => Val (0, true)
  | Some blk :: blks => let v := masked_val mask blk in if v <? mx then Val (v, false) else rand_Int_loop mx mask blks
  end.
(** util/encode.go:98-104 [RandInt64Strict]: the value and whether the error is non-nil; rand.Int panics for max <= 0. *)
Definition RandInt64Strict (i : Z) (blks : list (option (list Z))) : outcome (Z * bool) :=
  if i <=? 0 then Panics
  else if i - 1 =? 0 then Val (0, false)
  else rand_Int_loop i (rand_mask (i - 1)) blks.

(** What os.Stat can come back with (os; util/encode.go:130): success, "not exist", "permission denied", or "exists" (EEXIST,
    ENOTEMPTY), the only one os.IsExist accepts. *)
Inductive stat_result := StatOk | StatNotExist | StatPermission | StatExist.
(** util/encode.go:128-134 [IsFileExist]. *)
Definition IsFileExist (path : list Z) (stat : list Z -> stat_result) : bool :=
  match path with
  | [] => false
  | _ => match stat path with StatOk => true | StatExist => true | _ => false end
  end.
