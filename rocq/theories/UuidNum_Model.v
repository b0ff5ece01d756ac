(** The numbers made of UUIDs: UUID.Int32 and util's UUID64 and UUID32.  maphash.Bytes is not modelled: each of its results is handed in. *)
From Coq Require Import ZArith List Bool.
From Verif Require Import GoInt Uuid_Model.
Import ListNotations.
Local Open Scope Z_scope.

(** uuid/uuid.go:60-62 [Int32], where [h] is hash64 of the 16 bytes (uuid/uuid.go:161-163), a uint64. *)
Definition Int32_ (h : Z) : Z := i32 h.
(** util/encode.go:127-129 [UUID64], called by goroutines that interleave: the numbers returned so far, latest first.  Uuid_Model's [gen_run] gives the UUIDs (uuid/uuid.go:32-40). *)
Definition uuid64s (start : Z) (es : list gen_event) : list Z := map Int64_ (out (gen_run start es)).
(** util/encode.go:131-133 [UUID32]. *)
Definition UUID32 (h : Z) : Z := u32 (Int32_ h).
