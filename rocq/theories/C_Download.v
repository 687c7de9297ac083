(** Properties C01-C07: downloading and checking metadata. *)
From Verif Require Import Base BaseFacts S_Bencode S_Download M_Bencode M_Sha1 M_Utf8 M_Torrent M_Messages M_Peer
  P_Bencode P_Torrent P_Peer P_Download.

(** C01 *)
Theorem C01_metadata_authentic : forall ih declared evs info tr,
  get_metadata_info ih declared evs = (Finished (Ok info), tr) ->
  sha1 (ti_data info) = ih /\ ti_hash info = ih /\ declared = Some (blen (ti_data info)) /\
  bencoded_dict (ti_data info).
Proof. exact fetch_authentic. Qed.
Print Assumptions C01_metadata_authentic.
Example C01_nonvacuous :
  exists tr, get_metadata_info (sha1 ex_data) (Some (blen ex_data)) ex_script
             = (Finished (Ok (mkTI (sha1 ex_data) ex_data)), tr).
Proof. exact ex_fetch. Qed.

(** C02 *)
Theorem C02_requests_sequential : forall ih size evs st tr,
  get_metadata_info ih (Some size) evs = (st, tr) ->
  (forall before m after, tr = before ++ Sent m :: after -> allowed_send size before m) /\
  rejects_sent tr = requests_received tr.
Proof. exact fetch_sends. Qed.
Print Assumptions C02_requests_sequential.
Example C02_nonvacuous :
  requests_sent (snd (get_metadata_info (sha1 ex_data) (Some (blen ex_data)) ex_script)) = [0] /\
  rejects_sent (snd (get_metadata_info (sha1 ex_data) (Some (blen ex_data)) ex_script)) = [7] /\
  requests_sent (snd (get_metadata_info [] (Some 40000)
    [Ok (Meta (MData 0 40000 (repeat x00 (N.to_nat 16384)))); Ok (Meta (MData 1 40000 (repeat x00 (N.to_nat 16384))))])) = [0; 1; 2].
Proof. exact ex_requests. Qed.

(** C03 *)
Theorem C03_honest_peer_suffices : forall ih data evs,
  bencoded_dict data -> sha1 data = ih -> blen data <= 20971520 ->
  honest data 0 evs ->
  exists tr, get_metadata_info ih (Some (blen data)) evs = (Finished (Ok (mkTI ih data)), tr).
Proof. exact honest_suffices. Qed.
Print Assumptions C03_honest_peer_suffices.
Example C03_nonvacuous : bencoded_dict ex_data /\ blen ex_data <= 20971520 /\ honest ex_data 0 ex_script.
Proof. exact ex_honest. Qed.

(** C04 *)
Theorem C04_cap_before_requests : forall ih size evs,
  20971520 < size ->
  get_metadata_info ih (Some size) evs = (Finished (Err (InfoConstruct (TooLarge size))), []).
Proof. exact fetch_too_big. Qed.
Print Assumptions C04_cap_before_requests.
Theorem C04_buffer_bounded : forall ih declared evs size b i tr,
  get_metadata_info ih declared evs = (Waiting size b i, tr) ->
  declared = Some size /\ size <= 20971520 /\ blen (b_data b) <= size.
Proof. exact fetch_buffer. Qed.
Print Assumptions C04_buffer_bounded.
Example C04_nonvacuous :
  (exists size b i tr, get_metadata_info [] (Some 40000) [Ok (Meta (MData 0 40000 (repeat x00 (N.to_nat 16384))))]
     = (Waiting size b i, tr) /\ blen (b_data b) = 16384) /\
  get_metadata_info [] (Some 20971521) [] = (Finished (Err (InfoConstruct (TooLarge 20971521))), []).
Proof. exact ex_cap. Qed.

(** C05: [push_all] delivers arbitrary pieces one after the other, whatever each
    delivery returned; [delivery]: what the delivery of each returns.  The result is
    built exactly if all pieces have been delivered and those accepted, put together,
    are a bencoded dictionary with the right hash. *)
Theorem C05_assembly_total_and_verified : forall ih len ps,
  len < 2 ^ 32 ->
  match builder_new ih len with
  | Panic => False
  | Ret (Err e) => 20971520 < len /\ e = TooLarge len
  | Ret (Ok b) =>
      len <= 20971520 /\
      match push_all b ps with
      | Panic => False
      | Ret (rs, b') =>
          length rs = length ps /\
          (forall k p r, nth_error ps k = Some p -> nth_error rs k = Some r -> delivery len (N.of_nat k) p r) /\
          let data := concat (accepted ps rs) in
          forall info, builder_build b' = Ok info <->
            info = mkTI ih data /\ len <= 16384 * N.of_nat (length ps) /\ sha1 data = ih /\ bencoded_dict data
      end
  end.
Proof. exact assembly_total. Qed.
Print Assumptions C05_assembly_total_and_verified.
Example C05_nonvacuous :
  match builder_new (sha1 ex_data) (blen ex_data) with
  | Ret (Ok b) => match push_all b [ex_data; ex_data; []] with
                  | Ret (rs, b') => rs = [Ok tt; Err TooManyPieces; Err TooManyPieces] /\
                                    builder_build b' = Ok (mkTI (sha1 ex_data) ex_data)
                  | Panic => False
                  end
  | _ => False
  end.
Proof. exact ex_assembly. Qed.

(** C06 *)
Theorem C06_name_never_panics : forall ih declared evs info tr,
  get_metadata_info ih declared evs = (Finished (Ok info), tr) ->
  exists d, ti_data info = encode (VDict d) /\ canonical (VDict d) /\
    ti_name info = Ret (match lookup (bs "name") d with
                        | Some (VBytes s) => Some (from_utf8_lossy s)
                        | _ => None
                        end).
Proof. exact name_total. Qed.
Print Assumptions C06_name_never_panics.
Example C06_nonvacuous : ti_name (mkTI (sha1 ex_data) ex_data) = Ret (Some (bs "x")).
Proof. exact ex_name. Qed.

(** C07 *)
Theorem C07_dict_check_exact : forall buf, check_bencode_dict buf = Ok tt <-> bencoded_dict buf.
Proof. exact check_bencode_dict_iff. Qed.
Print Assumptions C07_dict_check_exact.
Example C07_nonvacuous : bencoded_dict ex_data /\ check_bencode_dict ex_data = Ok tt /\
  check_bencode_dict (bs "d1:bi1e1:ai1ee") = Err DSyntax.
Proof. exact ex_check. Qed.
