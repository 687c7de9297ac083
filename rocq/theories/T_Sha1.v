(** SHA-1 test vectors (FIPS 180-4 / RFC 3174). *)
From Verif Require Import Base M_Sha1.
Example sha1_empty : be_val (sha1 []) = 0xda39a3ee5e6b4b0d3255bfef95601890afd80709.
Proof. vm_compute. reflexivity. Qed.
Example sha1_abc : be_val (sha1 (bs "abc")) = 0xa9993e364706816aba3e25717850c26c9cd0d89d.
Proof. vm_compute. reflexivity. Qed.
Example sha1_two_blocks :
  be_val (sha1 (bs "abcdbcdecdefdefgefghfghighijhijkijkljklmklmnlmnomnopnopq"))
  = 0x84983e441c3bd26ebaae4aa1f95129e5e54670f1.
Proof. vm_compute. reflexivity. Qed.
Example sha1_640 :
  be_val (sha1 (concat (repeat (bs "0123456701234567012345670123456701234567012345670123456701234567") 10)))
  = 0xdea356a2cddd90c7a7ecedc5ebb563934f460452.
Proof. vm_compute. reflexivity. Qed.
