(** Properties C159 and C160: whether the numbers that UUID64 and UUID32 give repeat.

    maphash.Bytes is given inputs that all differ (33 bytes with the sequence number for UUID64, the bytes of a UUID for UUID32: C11); its results are taken to be independent
    and uniform, which is what a chance is about.  Nothing is assumed about them in the other theorems. *)
From Coq Require Import ZArith List Bool Lia Reals Lra.
From Verif Require Import GoInt Uuid_Model Uuid_Spec Uuid_Proofs BloomRate_Spec UuidNum_Model UuidNum_Spec UuidNum_Proofs.
Import ListNotations.
Local Open Scope Z_scope.

(** * C159 UUID64 *)
(** Two goroutines, different hash values, the same number: the four bits that give way to the version are lost. *)
Theorem c159_uuid64_refuted : exists start es, is_u64 start /\ adds es = 2 /\ NoDup (out (gen_run start es)) /\ repeats (uuid64s start es) = true.
Proof.
  exists 7, [EAdd 1; EAdd 2; EFin 2 0xABCDEF0123456789; EFin 1 0xABCDEF012345F789]. split; [unfold is_u64; lia|]. split; [reflexivity|]. split; [|vm_compute; reflexivity].
  apply gen_unique; [unfold is_u64; lia|vm_compute; discriminate].
Qed.
Print Assumptions c159_uuid64_refuted.
(** Whatever the hash does, more than 2^60 numbers cannot all differ, although there are 2^64 int64s. *)
Theorem c159_uuid64_must_repeat_refuted : forall start es, 2 ^ 60 < Z.of_nat (length (uuid64s start es)) -> repeats (uuid64s start es) = true.
Proof. exact few_values. Qed.
Print Assumptions c159_uuid64_must_repeat_refuted.
(** What holds: in any interleaving of n calls that return, some number repeats with a chance of at most n (n - 1) / 2^61. *)
Theorem c159_uuid64_partial : forall start es, let n := returns es in
  (chance n (fun t => repeats (uuid64s start (hashing t es))) <= IZR (Z.of_nat n * (Z.of_nat n - 1)) / IZR (2 ^ 61))%R.
Proof.
  intros start es n. refine (Rle_trans _ _ _ _ (proj1 (chance64 n))). apply chance_le. intros t Ht. apply BloomRate_Count.tables_in in Ht as [L R]. apply run_repeats; assumption.
Qed.
Print Assumptions c159_uuid64_partial.
(** The bound is of the right size: numbers stay different with a chance of at most 2^61 / (2^61 + n (n - 1)). *)
Theorem c159_uuid64_likely : forall start es, let n := returns es in length (out (gen_run start es)) = n ->
  (1 - chance n (fun t => repeats (uuid64s start (hashing t es))) <= IZR (2 ^ 61) / IZR (2 ^ 61 + Z.of_nat n * (Z.of_nat n - 1)))%R.
Proof.
  intros start es n H. rewrite (chance_ext n _ (fun t => repeats (map k64 t))); [exact (proj2 (chance64 n))|]. intros t Ht. apply BloomRate_Count.tables_in in Ht as [L R]. apply run_all; assumption.
Qed.
Print Assumptions c159_uuid64_likely.
(** Three calls of two goroutines, all of which return; a million calls repeat with a chance below one in two million. *)
Example c159_ex : let es := [EAdd 1; EAdd 2; EFin 2 0; EAdd 2; EFin 2 0; EFin 1 0] in
  returns es = 3%nat /\ length (out (gen_run 5 es)) = 3%nat /\ uuid64s 5 (hashing [1; 2 ^ 63; 61440] es) = [16384; - 2 ^ 63 + 16384; 16385] /\
  (IZR (10 ^ 6 * (10 ^ 6 - 1)) / IZR (2 ^ 61) < / 2000000)%R.
Proof. cbv zeta. split; [reflexivity|]. split; [reflexivity|]. split; [vm_compute; reflexivity|]. change (10 ^ 6 * (10 ^ 6 - 1)) with 999999000000. change (2 ^ 61) with 2305843009213693952. lra. Qed.

(** * C160 UUID32 *)
(** UUID32 shows the low 32 bits of the hash of a UUID; two different hashes give the same number. *)
Theorem c160_uuid32_refuted : exists h h', 0 <= h < 2 ^ 64 /\ 0 <= h' < 2 ^ 64 /\ h <> h' /\ UUID32 h = UUID32 h'.
Proof. exists 5, (2 ^ 63 + 5). vm_compute. repeat split; discriminate. Qed.
Print Assumptions c160_uuid32_refuted.
(** n calls repeat with a chance of at most n (n - 1) / 2^33 ... *)
Theorem c160_uuid32_partial : forall n, (chance n (fun t => repeats (map UUID32 t)) <= IZR (Z.of_nat n * (Z.of_nat n - 1)) / IZR (2 ^ 33))%R.
Proof. intros n. rewrite (chance_ext n _ (fun t => repeats (map k32 t))); [exact (proj1 (chance32 n))|]. intros t _. rewrite (map_ext _ _ UUID32_eq). reflexivity. Qed.
Print Assumptions c160_uuid32_partial.
(** ... and already 92683 calls more often than not. *)
Theorem c160_uuid32_likely_refuted : forall n, 92683 <= Z.of_nat n -> (1 / 2 <= chance n (fun t => repeats (map UUID32 t)))%R.
Proof.
  intros n Hn. rewrite (chance_ext n _ (fun t => repeats (map k32 t))) by (intros t _; rewrite (map_ext _ _ UUID32_eq); reflexivity). pose proof (proj2 (chance32 n)) as H. set (c := chance n _) in *.
  assert (IZR (2 * 2 ^ 32) / IZR (2 * 2 ^ 32 + Z.of_nat n * (Z.of_nat n - 1)) <= 1 / 2)%R; [|lra]. assert (2 * 2 ^ 32 <= Z.of_nat n * (Z.of_nat n - 1)) as Q by nia. set (q := Z.of_nat n * (Z.of_nat n - 1)) in *. apply IZR_le in Q. rewrite plus_IZR. set (k := IZR (2 * 2 ^ 32)) in *.
  assert (0 < k)%R by (apply IZR_lt; lia). apply (Rmult_le_reg_r (k + IZR q)); [lra|]. replace (k / (k + IZR q) * (k + IZR q))%R with k by (field; lra). lra.
Qed.
Print Assumptions c160_uuid32_likely_refuted.
Example c160_ex : UUID32 (2 ^ 64 - 1) = 2 ^ 32 - 1 /\ Int32_ (2 ^ 64 - 1) = -1 /\ (IZR (1000 * (1000 - 1)) / IZR (2 ^ 33) < / 8000)%R.
Proof. split; [reflexivity|]. split; [reflexivity|]. change (1000 * (1000 - 1)) with 999000. change (2 ^ 33) with 8589934592. lra. Qed.
