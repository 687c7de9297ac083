(** Properties C23-C28 and C30-C32: wire formats shared with trackers and peers.
    The formats themselves ([be], [compact], [handshake_wire], [core_wire], ...)
    are specified in S_Wire. *)
From Verif Require Import Base S_Bencode S_Utf8 M_Net M_Util M_Compact M_Extensions M_Messages S_Wire P_Wire P_PeerWire P_ExtWire.

(** C23 *)
Theorem C23_big_endian_reads : forall k buf,
  ((length buf < k)%nat -> try_get_uint k buf = Err Short) /\
  (forall b r, buf = b ++ r -> length b = k -> try_get_uint k buf = Ok (be b, r)).
Proof. exact reads_big_endian. Qed.
Print Assumptions C23_big_endian_reads.
Theorem C23_signed_reads : forall buf,
  ((length buf < 4)%nat -> try_get_i32 buf = Err Short) /\
  (forall b r, buf = b ++ r -> length b = 4%nat ->
     exists z, try_get_i32 buf = Ok (z, r) /\ signed 32 (be b) z).
Proof. exact reads_signed. Qed.
Print Assumptions C23_signed_reads.
Example C23_nonvacuous : try_get_uint 4 (bs "0123abc") = Ok (808530483, bs "abc") /\
  try_get_i32 (x80 :: bs "123abc") = Ok ((-2144259533)%Z, bs "abc") /\ try_get_uint 8 (bs "0123abc") = Err Short.
Proof. vm_compute. auto. Qed.

(** C24 *)
Theorem C24_compact_addresses :
  (forall a, wf_sa a -> compact a (to_compact a) /\ from_compact (to_compact a) = Ok a) /\
  (forall s a, from_compact s = Ok a <-> compact a s) /\
  (forall s, (exists a, from_compact s = Ok a) <-> length s = 6%nat \/ length s = 18%nat) /\
  (forall s a, from_compact_v4 s = Ok a <-> compact a s /\ is_v4 a) /\
  (forall s a, from_compact_v6 s = Ok a <-> compact a s /\ ~ is_v4 a).
Proof. exact compact_addresses. Qed.
Print Assumptions C24_compact_addresses.
Example C24_nonvacuous :
  wf_sa (mkSA (V4 2130706433) 6881) /\ to_compact (mkSA (V4 2130706433) 6881) = [x7f; x00; x00; x01; x1a; xe1].
Proof. split; [split; reflexivity|reflexivity]. Qed.

(** C25 *)
Theorem C25_compact_v4_lists : forall s,
  (forall l, vec_v4_from_compact s = Ok l <-> Forall (fun a => wf_sa a /\ is_v4 a) l /\ s = concat (map to_compact l)) /\
  ((exists l, vec_v4_from_compact s = Ok l) <-> (length s mod 6 = 0)%nat) /\
  (forall l, vec_v4_from_compact s = Ok l -> (length l * 6 = length s)%nat).
Proof. exact vec_v4. Qed.
Print Assumptions C25_compact_v4_lists.
Theorem C25_compact_v6_lists : forall s,
  (forall l, vec_v6_from_compact s = Ok l <-> Forall (fun a => wf_sa a /\ ~ is_v4 a) l /\ s = concat (map to_compact l)) /\
  ((exists l, vec_v6_from_compact s = Ok l) <-> (length s mod 18 = 0)%nat) /\
  (forall l, vec_v6_from_compact s = Ok l -> (length l * 18 = length s)%nat).
Proof. exact vec_v6. Qed.
Print Assumptions C25_compact_v6_lists.
Example C25_nonvacuous :
  vec_v4_from_compact [x7f; x00; x00; x01; x1a; xe1; x01; x02; x03; x04; x00; x05]
  = Ok [mkSA (V4 2130706433) 6881; mkSA (V4 16909060) 5] /\
  vec_v4_from_compact [x7f; x00; x00; x01; x1a; xe1; x01] = Err (BadLength 1).
Proof. vm_compute. auto. Qed.

(** C26 *)
Theorem C26_handshake_bijection :
  (forall h, hs_ext h < 2 ^ 64 -> length (hs_hash h) = 20%nat -> length (hs_pid h) = 20%nat ->
     handshake_wire h (handshake_bytes h) /\ length (handshake_bytes h) = 68%nat /\
     handshake_decode (handshake_bytes h) = Ok h) /\
  (forall s h, handshake_decode s = Ok h <-> handshake_wire h s) /\
  (forall s h, handshake_decode s = Ok h -> handshake_bytes h = s /\ length s = 68%nat).
Proof. exact handshake_codec. Qed.
Print Assumptions C26_handshake_bijection.
Example C26_nonvacuous :
  handshake_decode (x13 :: bs "BitTorrent protocol" ++ [x00; x00; x00; x00; x00; x10; x00; x04]
     ++ bs "aaaaaaaaaaaaaaaaaaaa" ++ bs "-DM-0070-bbbbbbbbbbb")
  = Ok (mkHS 1048580 (bs "aaaaaaaaaaaaaaaaaaaa") (bs "-DM-0070-bbbbbbbbbbb")) /\
  handshake_decode (x13 :: bs "BitTorrent protocol") = Err (HSLength Short) /\
  handshake_decode (x13 :: bs "BitTorrent protokol" ++ bs "...") = Err InvalidHeader.
Proof. vm_compute. auto. Qed.

(** C27: [advertises] is the byte/mask table of BEP 4. *)
Theorem C27_negotiation_is_intersection :
  (forall r1 r2 e, length r1 = 8%nat -> length r2 = 8%nat ->
     (ext_has (ext_and (be r1) (be r2)) e = true <-> advertises r1 e /\ advertises r2 e)) /\
  (forall l e, ext_has (ext_from l) e = true <-> In e l) /\
  (forall l e, advertises (be_bytes 8 (ext_from l)) e <-> In e l) /\
  (forall e1 e2, reserved_bit e1 = reserved_bit e2 -> e1 = e2).
Proof. exact negotiation. Qed.
Print Assumptions C27_negotiation_is_intersection.
Example C27_nonvacuous :
  ext_has (ext_and (be [x00; x00; x00; x00; x00; x10; x00; x05]) (ext_from SUPPORTED_EXTENSIONS)) Bep10 = true /\
  ext_has (ext_and (be [x00; x00; x00; x00; x00; x10; x00; x05]) (ext_from SUPPORTED_EXTENSIONS)) Dht = false.
Proof. vm_compute. auto. Qed.

(** C28: core messages, extended payloads opaque *)
Theorem C28_core_messages :
  (forall m, core_ok m -> core_wire m (core_encode m)) /\
  (forall m s, core_wire m s -> s = core_encode m) /\
  (forall s m, core_decode s = Ok m <-> core_ok m /\ core_wire m s).
Proof. exact core_codec. Qed.
Print Assumptions C28_core_messages.
(** Every message the client can build is understood by a receiver with the same
    extension ids; encoding never panics and fails only for metadata messages
    when the peer did not register the extension. *)
Theorem C28_all_messages : forall r m, registered r -> message_ok m ->
  (exists s, msg_encode m r = Ret (Ok s) /\ msg_decode s r = Ok m) \/
  (msg_encode m r = Ret (Err tt) /\ (exists x, m = Meta x) /\ forall c, reg_get_message_id r Metadata <> Some c).
Proof. exact message_roundtrip. Qed.
Print Assumptions C28_all_messages.
Example C28_nonvacuous :
  core_decode (x06 :: [x00; x00; x00; x01; x00; x00; x00; x02; x00; x00; x40; x00]) = Ok (Request 1 2 16384) /\
  core_decode (x06 :: [x00; x00; x00; x01; x00; x00; x00; x02; x00; x00; x40]) = Err (MLength x06 Short) /\
  core_decode [x0a] = Err (MUnknown x0a) /\ core_ok (Request 1 2 16384) /\
  exists r, reg_register reg_new Metadata 3 = Ok r /\ registered r /\
    msg_encode (Meta (MRequest 5)) r = Ret (Ok (x14 :: x03 :: bs "d8:msg_typei0e5:piecei5ee")).
Proof.
  split; [reflexivity|]. split; [reflexivity|]. split; [reflexivity|].
  split; [repeat constructor|]. eexists. split; [reflexivity|]. split; [|reflexivity].
  apply (registered_add reg_new Metadata 3); [constructor|reflexivity|reflexivity].
Qed.

(** C30 *)
Theorem C30_decodes_exactly : forall s h, eh_decode s = Ok h <->
  exists d, s = encode (VDict d) /\ canonical (VDict d) /\ (depth (VDict d) <= 2048)%nat /\ ext_handshake_says d h.
Proof. exact eh_decode_iff. Qed.
Print Assumptions C30_decodes_exactly.
Theorem C30_roundtrip : forall h, ext_handshake_ok h -> exists s, eh_encode h = Ret s /\ eh_decode s = Ok h.
Proof. exact eh_roundtrip. Qed.
Print Assumptions C30_roundtrip.
Example C30_nonvacuous :
  eh_decode (bs "d1:ei0e1:md11:ut_metadatai3ee13:metadata_sizei31235e1:v4:Test6:yourip4:ABCDe")
  = Ok (mkEH (Some false) (Some [(bs "ut_metadata", 3)]) (Some (bs "Test")) (Some 31235) (Some (V4 1094861636))) /\
  ext_handshake_ok (mkEH (Some false) (Some [(bs "ut_metadata", 3)]) None (Some 31235) (Some (V4 1094861636))).
Proof.
  split; [vm_compute; reflexivity|]. repeat split; cbn; try discriminate.
  - injection H as <-. exact I.
  - injection H as <-. repeat constructor. exists (map b2n (bs "ut_metadata")). split; [|reflexivity].
    repeat constructor.
  - intros n [= <-]. reflexivity.
  - intros i [= <-]. reflexivity.
Qed.

(** C31 *)
Theorem C31_decodes_exactly : forall s m, mm_decode s = Ok m <->
  exists d rest, s = encode (VDict d) ++ rest /\ canonical (VDict d) /\ (depth (VDict d) <= 2)%nat /\
    metadata_says d rest m.
Proof. exact mm_decode_iff. Qed.
Print Assumptions C31_decodes_exactly.
Theorem C31_roundtrip : forall m, metadata_ok m -> exists s, mm_encode m = Ret s /\ mm_decode s = Ok m.
Proof. exact mm_roundtrip. Qed.
Print Assumptions C31_roundtrip.
Example C31_nonvacuous :
  mm_decode (bs "d8:msg_typei1e5:piecei0e10:total_sizei34256eed1:xi1ee") = Ok (MData 0 34256 (bs "d1:xi1ee")) /\
  mm_decode (bs "d8:msg_typei0e5:piecei0eex") = Err MMetadata /\ metadata_ok (MData 0 34256 (bs "d1:xi1ee")).
Proof. vm_compute. auto. Qed.

(** C32 *)
Theorem C32_inverse_maps : forall r, registered r ->
  (forall e c, reg_get_message_id r e = Some c <-> reg_for_message_id r c = Some e) /\
  (forall e c, reg_get_message_id r e = Some c -> 0 < c < 256).
Proof. exact registered_inverse. Qed.
Print Assumptions C32_inverse_maps.
Theorem C32_from_dictionary : forall m, Forall (fun kc => snd kc < 256) m -> NoDup (map fst m) ->
  match reg_from_m m with
  | Ok r => registered r /\ inverse_maps r /\
      (forall e c, reg_get_message_id r e = Some c <-> In (bep10_name e, c) m)
  | Err _ => exists e, In (bep10_name e, 0) m
  end.
Proof. exact from_m_spec. Qed.
Print Assumptions C32_from_dictionary.
Theorem C32_zero_refused : forall m e, Forall (fun kc => snd kc < 256) m -> NoDup (map fst m) ->
  In (bep10_name e, 0) m -> is_ok (reg_from_m m) = false.
Proof. exact from_m_zero. Qed.
Print Assumptions C32_zero_refused.
Theorem C32_unknown_ignored : forall m1 k v m2, (forall e, k <> bep10_name e) ->
  reg_from_m (m1 ++ (k, v) :: m2) = reg_from_m (m1 ++ m2).
Proof. exact from_m_unknown. Qed.
Print Assumptions C32_unknown_ignored.
Example C32_nonvacuous :
  exists r, reg_from_m [(bs "lt_donthave", 7); (bs "ut_metadata", 2); (bs "ut_pex", 0)] = Ok r /\
    reg_get_message_id r Metadata = Some 2 /\ reg_for_message_id r 2 = Some Metadata /\ reg_for_message_id r 7 = None.
Proof. eexists. vm_compute. auto. Qed.
