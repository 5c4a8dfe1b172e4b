(* Property theorems C01, C02. *)
From Verif Require Import Base Checksum_Model Checksum_Spec Checksum_Proofs.

(* C01: Adler-32 equals the RFC 1950 value on every byte sequence. *)
Theorem C01_adler32_correct : forall d, bytes d -> adler32 d = Some (adler32_spec d).
Proof. exact adler32_correct. Qed.
Print Assumptions C01_adler32_correct.

(* C01: and so does feeding the data in any number of pieces, from the initial checksum 1. *)
Theorem C01_adler32_incremental : forall parts, Forall bytes parts ->
  update_all adler32_update_ref 1 parts = Some (adler32_spec (concat parts)).
Proof. exact adler_incremental. Qed.
Print Assumptions C01_adler32_incremental.

Example C01_example : bytes [87;105;107;105;112;101;100;105;97] /\
  adler32 [87;105;107;105;112;101;100;105;97] = Some 300286872. (* "Wikipedia" -> 0x11E60398 *)
Proof. split; [repeat constructor; unfold is_byte; lia | vm_compute; reflexivity]. Qed.

(* C02: table driven CRC-32 equals the bit-serial CRC on every byte sequence. *)
Theorem C02_crc32_correct : forall d, bytes d -> crc32 d = Some (crc32_spec d).
Proof. exact crc32_correct. Qed.
Print Assumptions C02_crc32_correct.

(* C02: and equals the polynomial remainder over GF(2) (complemented, bit-reflected). *)
Theorem C02_crc32_is_polynomial_remainder : forall d, bytes d ->
  exists v, crc32 d = Some v /\ 0 <= v < 2^32 /\
    forall i, (i < 32)%nat -> Z.testbit v (Z.of_nat i) = negb (nth i (crc32_remainder d) false).
Proof. exact crc32_is_remainder. Qed.
Print Assumptions C02_crc32_is_polynomial_remainder.

(* C02: incremental updates over any split give the value of the whole. *)
Theorem C02_crc32_incremental : forall parts, Forall bytes parts ->
  update_all crc32_update_ref kCrc32Initial parts = crc32_update_ref kCrc32Initial (concat parts).
Proof. exact crc_incremental. Qed.
Print Assumptions C02_crc32_incremental.

Example C02_example : crc32 [49;50;51;52;53;54;55;56;57] = Some 3421780262. (* "123456789" -> 0xCBF43926 *)
Proof. vm_compute. reflexivity. Qed.
