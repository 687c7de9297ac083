(** The unit tests of src/peer/msepe.rs:603-737, replayed on the model (the values drawn
    from the seeded generator are given), and RC4 test vectors (RFC 6229). *)
From Verif Require Import Base M_Sha1 M_Rc4 M_Mse.

Definition hexval (b : byte) : N := let n := b2n b in if n <? 58 then n - 48 else n - 87.
Fixpoint hex (s : bytes) : bytes := match s with a :: b :: r => n2b (hexval a * 16 + hexval b) :: hex r | _ => [] end.
Example rc4_vectors :
  fst (rc4_apply (rc4_init (hex (bs "0102030405"))) (repeat x00 16)) = hex (bs "b2396305f03dc027ccc3524a0a1118a8") /\
  fst (rc4_apply (snd (rc4_apply (rc4_init (hex (bs "0102030405"))) (repeat x00 1024))) (repeat x00 16)) = hex (bs "30abbcc7c20b01609f23ee2d5f6bb7df") /\
  fst (rc4_apply (rc4_init (hex (bs "0102030405060708090a0b0c0d0e0f10"))) (repeat x00 16)) = hex (bs "9ac7cc9a609d1ef7b2932899cde41b97").
Proof. vm_compute. auto. Qed.
Definition info_hash := hex (bs "28c55196f57753c40aceb6fb58617e6995a7eddb").
Definition private_key := hex (bs "a068078feb542e953c13e4dacece2b6730a2b512").
Definition public_key := hex (bs "fe0ffefc8a55947c7054729257d361deffc0f235bd0401acf283c4a34d0d38b7fc183fc4b172e74eed2226c9b58337605448b8217a036b740886c49578963c8ef1e1211da94f3e1386a9a6f82e8e54156de0fc5897b3a84a6d8108492cc38b6a").
Definition server_pubkey := hex (bs "b5816983bb486213388ea0ce7d8069cb62e8333a81eade46313590ff40ac185faeae22b28d4460341fa519171a15343844b80904e2e772bcc9dd8964586bdd08bb3ce6941a82dc1d305f7c8f771119f1b3c6f0d34a74f22b726d94b453b878fb").
Definition packet3 := hex (bs "8e34baff908570c95d7ac86a8cbd66bca97559ba90eb626d8887c8f01e6239809baa3be4a8b20aa71767de7f5409d59790a6ea2305d73ab2946572e9095be91d082f6b1e589dd086265ab55472d059285e82b7c5532736ffb2ab384615c9ebb77305224f3bc475a9d5a54b867c3c19daf105d52d1283107d0a82091b4cce1d33c2733f884cee790daadbeeaf4b415bf431d9c259de7a01e348b6629191502c46adf815a366f725a30cafedf3cacb4bd1230280e59f6c85e8bb80db4c83d6ec7139351512db13d739073f21310f9fd72cf0f8b7b5874ce034b654e5c360fb5d4bc0b4e26c289462627e32d0e76fe0b036720aa447908a83ed5c33894c33467031777d94420dc5894a45446a1c54c421b0ba91fedc591e3a64b4fa644080ae509757c41e6a10d3e360cb5ced64ad29587f54f655dc0cc9cf7fca4f4f85b63b594e20121a7c3e0d5026f68440324f420e0d086678d89e530e77d44ab68b13c5f7dc7e08a43e198640e6082005823446ec6ca0a796611247ae2f2f2457c611f8dde116490e6d4497af80af19676320545afecced4dd6c1f46ee0fbfb9ad77172e13bfff4a8f7e75e2608cd7d7b437368a33e40d208").
Definition packet4 := hex (bs "997fd11c26fca76561f2731f5ca125bef92cdde3a41fbdcb5462f7d6b6bca93d7235c29d5eb847408d1b899472b455645325ab28cf7e0f76").
Definition shaker0 := build info_hash 30 (bs "padding") 379 private_key.
(** The checks with 768-bit exponentiation are made at build time by the kernel's virtual
    machine and not stored: the independent checker, which has none, would take hours. *)
Definition test_build : Prop := firstn 96 (match h_output shaker0 with Some b => b | None => [] end) = public_key.
Check (@eq_refl bytes public_key <: test_build).
Definition run_test : option (bytes * bytes * bytes * bytes) :=
  match handle_input shaker0 (server_pubkey ++ repeat x00 123) with
  | Ok s1 =>
      match handle_timeout s1 with
      | Ok s2 =>
          match handle_input s2 packet4 with
          | Ok s3 =>
              match h_output s2, into_keystream s3 with
              | Some p3, Some (ks, extra) =>
                  let (o, ks) := ks_encode ks (bs "Hello, World!") in
                  let (i, ks) := ks_decode ks (bs "Guten Tag, Welt!") in
                  Some (p3, extra, o, i)
              | _, _ => None
              end
          | Err _ => None
          end
      | Err _ => None
      end
  | Err _ => None
  end.
Definition result := Some (packet3, ([] : bytes), hex (bs "825807e21b9faa9dd6e4fb3cac"), hex (bs "4fab277eea46010cf84c296afc116ea3")).
Definition test_handshake : Prop := run_test = result.
Check (@eq_refl (option (bytes * bytes * bytes * bytes)) result <: test_handshake).
