(** The unit tests of src/peer/messages.rs:847-1070, src/peer/extensions.rs:258-297,
    src/util.rs:178-183 and src/types.rs:303-310 that concern texts, replayed on the model. *)
From Verif Require Import Base M_Net M_Types M_Extensions M_Messages M_Log.

Definition no (c : N) : bool := false.
Definition ih : bytes := bs "k" ++ [xcb; xd4] ++ bs "A" ++ [xd7; xa0; x88; xc6] ++ bs ";" ++ [xa8; xf8; x82; xe3; x12; x91; xd3; x85; xa7; x96] ++ bs "L".
Definition shake_text (buf : bytes) : bytes := match handshake_decode buf with Ok h => show_shake h | Err _ => [] end.
Example handshake : shake_text (x13 :: bs "BitTorrent protocol" ++ [x00; x00; x00; x00; x00; x10; x00; x05] ++ ih ++ bs "-TR3000-vfu1svh0ewb6") =
  bs "handshake (extensions: BEP 10 Extension Protocol, BitTorrent DHT, Fast Extension; peer ID: b""-TR3000-vfu1svh0ewb6"")".
Proof. vm_compute. reflexivity. Qed.
Example handshake_unknown_ext : shake_text (x13 :: bs "BitTorrent protocol" ++ [x00; x00; x00; x00; x00; x18; x00; x05] ++ ih ++ bs "-qB4360-5Ngjy9uIMl~O") =
  bs "handshake (extensions: BEP 10 Extension Protocol, BitTorrent DHT, Fast Extension, Unknown(0x0000000000080000); peer ID: b""-qB4360-5Ngjy9uIMl~O"")".
Proof. vm_compute. reflexivity. Qed.
Definition core_text (buf : bytes) : bytes := match core_decode buf with Ok m => show_core m | Err _ => [] end.
Example haveall : core_text [x0e] = bs "have all". Proof. vm_compute. reflexivity. Qed.
Example havenone : core_text [x0f] = bs "have none". Proof. vm_compute. reflexivity. Qed.
Example port : core_text [x09; x88; xb7] = bs "DHT port: 34999". Proof. vm_compute. reflexivity. Qed.
Example extended : core_text ([x14; x01] ++ bs "d5:addede") = bs "extended message (message ID 1)". Proof. vm_compute. reflexivity. Qed.
Definition msg_text (buf : bytes) (r : registry) : bytes := match msg_decode buf r with Ok m => show_msg no m | Err _ => [] end.
Example decode_extended_handshake :
  msg_text ([x14; x00] ++ bs "d12:complete_agoi1441e1:md11:lt_donthavei7e10:share_modei8e11:upload_onlyi3e12:ut_holepunchi4e11:ut_metadatai2e6:ut_pexi1ee13:metadata_sizei5436e4:reqqi500e11:upload_onlyi1e1:v17:qBittorrent/4.3.66:yourip4:" ++ [x99; xa2] ++ bs "D" ++ [x9b] ++ bs "e") reg_new =
  bs "extended handshake: extensions: ""lt_donthave"", ""share_mode"", ""upload_only"", ""ut_holepunch"", ""ut_metadata"", ""ut_pex""; client: ""qBittorrent/4.3.6""; metadata size: 5436; yourip: 153.162.68.155".
Proof. vm_compute. reflexivity. Qed.
Example decode_extended_handshake_with_e :
  msg_text ([x14; x00] ++ bs "d1:ei1e1:md11:ut_metadatai2ee13:metadata_sizei5436e1:v15:A Client v1.2.36:yourip4:" ++ [x99; xa2] ++ bs "D" ++ [x9b] ++ bs "e") reg_new =
  bs "extended handshake: extensions: ""ut_metadata""; prefers encryption; client: ""A Client v1.2.3""; metadata size: 5436; yourip: 153.162.68.155".
Proof. vm_compute. reflexivity. Qed.
Definition reg3 : registry := match reg_register reg_new Metadata 3 with Ok r => r | Err _ => reg_new end.
Example metadata_request : msg_text ([x14; x03] ++ bs "d8:msg_typei0e5:piecei0ee") reg3 = bs "metadata request: piece 0". Proof. vm_compute. reflexivity. Qed.
Example metadata_data : msg_text ([x14; x03] ++ bs "d8:msg_typei1e5:piecei0e10:total_sizei5436eed5:filesld6:lengthi267661684e4:pathl72:...") reg3 =
  bs "metadata data: piece 0, total size 5436, payload size 42".
Proof. vm_compute. reflexivity. Qed.
Example no_extensions : show_exts 0 = bs "<none>". Proof. vm_compute. reflexivity. Qed.
Example unknown_extensions : show_exts 33792 = bs "Unknown(0x0000000000008400)". Proof. vm_compute. reflexivity. Qed.
Example comma_lists : map (fun l => comma_list (map dec l)) [[]; [42]; [42; 23]; [42; 23; 17]] = [bs "<none>"; bs "42"; bs "42, 23"; bs "42, 23, 17"].
Proof. vm_compute. reflexivity. Qed.
Example peer_id : debug_bytes (bs "-PRE-123-abcdefghij" ++ [xc3]) = bs "b""-PRE-123-abcdefghij\xc3""". Proof. vm_compute. reflexivity. Qed.
