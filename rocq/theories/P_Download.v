(** Corollaries and concrete cases for C_Download. *)
From Verif Require Import Base BaseFacts S_Bencode S_Download M_Bencode M_Sha1 M_Utf8 M_Torrent M_Messages M_Peer
  P_Bencode P_Torrent P_Peer.

Definition ex_data : bytes := bs "d6:lengthi1e4:name1:x12:piece lengthi1ee".
Definition ex_script : list event :=
  [Ok (Core HaveNone); Ok (Meta (MRequest 7)); Ok (Meta (MData 0 (blen ex_data) ex_data))].

Lemma ex_dict : bencoded_dict ex_data.
Proof. apply check_bencode_dict_iff. vm_compute. reflexivity. Qed.

Lemma ex_fetch : exists tr, get_metadata_info (sha1 ex_data) (Some (blen ex_data)) ex_script
             = (Finished (Ok (mkTI (sha1 ex_data) ex_data)), tr).
Proof. eexists. vm_compute. reflexivity. Qed.

Lemma ex_requests :
  requests_sent (snd (get_metadata_info (sha1 ex_data) (Some (blen ex_data)) ex_script)) = [0] /\
  rejects_sent (snd (get_metadata_info (sha1 ex_data) (Some (blen ex_data)) ex_script)) = [7] /\
  requests_sent (snd (get_metadata_info [] (Some 40000)
    [Ok (Meta (MData 0 40000 (repeat x00 (N.to_nat 16384)))); Ok (Meta (MData 1 40000 (repeat x00 (N.to_nat 16384))))])) = [0; 1; 2].
Proof. repeat split; vm_compute; reflexivity. Qed.

Lemma honest_suffices ih data evs :
  bencoded_dict data -> sha1 data = ih -> blen data <= 20971520 ->
  honest data 0 evs ->
  exists tr, get_metadata_info ih (Some (blen data)) evs = (Finished (Ok (mkTI ih data)), tr).
Proof. intros. now apply fetch_honest. Qed.

Lemma ex_honest : bencoded_dict ex_data /\ blen ex_data <= 20971520 /\ honest ex_data 0 ex_script.
Proof.
  split; [exact ex_dict|]. split; [vm_compute; discriminate|].
  apply honest_other; [constructor|]. apply honest_other; [constructor|].
  change ex_data with (slice ex_data 0) at 3. apply honest_piece; [vm_compute; reflexivity|].
  apply honest_done. vm_compute. discriminate.
Qed.

Lemma ex_cap :
  (exists size b i tr, get_metadata_info [] (Some 40000) [Ok (Meta (MData 0 40000 (repeat x00 (N.to_nat 16384))))]
     = (Waiting size b i, tr) /\ blen (b_data b) = 16384) /\
  get_metadata_info [] (Some 20971521) [] = (Finished (Err (InfoConstruct (TooLarge 20971521))), []).
Proof. split; [|reflexivity]. do 4 eexists. split; vm_compute; reflexivity. Qed.

Lemma assembly_total ih len ps :
  len < 2 ^ 32 ->
  match builder_new ih len with
  | Panic => False
  | Ret (Err e) => 20971520 < len /\ e = TooLarge len
  | Ret (Ok b) =>
      len <= 20971520 /\
      match push_all b ps with
      | Panic => False
      | Ret (rs, b') =>
          length rs = length ps /\
          (forall k p r, nth_error ps k = Some p -> nth_error rs k = Some r -> delivery len (N.of_nat k) p r) /\
          let data := concat (accepted ps rs) in
          forall info, builder_build b' = Ok info <->
            info = mkTI ih data /\ len <= 16384 * N.of_nat (length ps) /\ sha1 data = ih /\ bencoded_dict data
      end
  end.
Proof.
  intros _. destruct (N.ltb_spec 20971520 len) as [H|H].
  - rewrite builder_new_big by auto. auto.
  - rewrite builder_new_eq by auto. split; [auto|].
    destruct (push_all_total ih len ps _ (shape_new ih len)) as (rs & b' & PA & Sb & HL & HD). rewrite PA.
    destruct (push_all_deliveries ih len ps _ _ _ (shape_new ih len) PA) as [DS NX]. cbn [b_next b_data app] in *.
    split; [auto|]. split.
    + intros k p r Hp Hr. specialize (DS _ _ _ Hp Hr). rewrite N.add_0_l in DS.
      destruct (N.le_gt_cases (N.of_nat k) (pieces len)) as [L|L].
      * now rewrite N.min_l in DS by auto.
      * rewrite N.min_r in DS by lia. unfold delivery in *. cbv zeta in *.
        assert (~ 16384 * pieces len < len) by (rewrite <- lt_pieces; lia).
        assert (~ 16384 * N.of_nat k < len) by (rewrite <- lt_pieces; lia).
        destruct DS as [DS|[DS|DS]]; [lia|lia|]. right. right. split; [lia|apply DS].
    + cbv zeta. intros info. rewrite <- HD.
      assert (LN : len <= 16384 * N.of_nat (length ps) <-> b_qty b' <= b_next b').
      { rewrite (sh_qty _ _ _ Sb), NX. pose proof (lt_pieces len (N.of_nat (length ps))). lia. }
      split.
      * intros B. apply build_ok in B as (Q & HS & HB & ->).
        rewrite (sh_fed _ _ _ Sb), (sh_hash _ _ _ Sb) in HS. rewrite (sh_hash _ _ _ Sb).
        split; [reflexivity|]. split; [tauto|]. auto.
      * intros (-> & L & HS & HB). rewrite <- (sh_hash _ _ _ Sb). apply build_complete; auto.
        -- apply LN in L. pose proof (sh_next _ _ _ Sb). rewrite <- (sh_qty _ _ _ Sb) in H0. lia.
        -- rewrite (sh_fed _ _ _ Sb), (sh_hash _ _ _ Sb). exact HS.
Qed.

Lemma ex_assembly :
  match builder_new (sha1 ex_data) (blen ex_data) with
  | Ret (Ok b) => match push_all b [ex_data; ex_data; []] with
                  | Ret (rs, b') => rs = [Ok tt; Err TooManyPieces; Err TooManyPieces] /\
                                    builder_build b' = Ok (mkTI (sha1 ex_data) ex_data)
                  | Panic => False
                  end
  | _ => False
  end.
Proof. vm_compute. auto. Qed.

Lemma find_name_lookup d :
  find_name d = match lookup (bs "name") d with
                | Some (VBytes s) => Some (from_utf8_lossy s)
                | _ => None
                end.
Proof.
  induction d as [|[k v] d IH]; [reflexivity|]. cbn [find_name lookup].
  destruct (bytes_eqb_spec k (bs "name")) as [->|NE].
  - now rewrite bytes_eqb_refl.
  - destruct (bytes_eqb_spec (bs "name") k); [congruence|auto].
Qed.

Lemma name_of_dict h data : bencoded_dict data ->
  exists d, data = encode (VDict d) /\ canonical (VDict d) /\
    ti_name (mkTI h data) = Ret (match lookup (bs "name") d with
                        | Some (VBytes s) => Some (from_utf8_lossy s)
                        | _ => None
                        end).
Proof.
  intros (d & E & C & D). exists d. split; [auto|]. split; [auto|].
  unfold ti_name. cbn [ti_data]. rewrite E. pose proof (parse_complete _ (VDict d) [] C D) as P.
  rewrite app_nil_r in P. change 2048%nat with DEFAULT_MAX_DEPTH in P. rewrite P.
  now rewrite find_name_lookup.
Qed.

Lemma name_total ih declared evs info tr :
  get_metadata_info ih declared evs = (Finished (Ok info), tr) ->
  exists d, ti_data info = encode (VDict d) /\ canonical (VDict d) /\
    ti_name info = Ret (match lookup (bs "name") d with
                        | Some (VBytes s) => Some (from_utf8_lossy s)
                        | _ => None
                        end).
Proof.
  intros H. apply fetch_authentic in H as (_ & _ & _ & HD). destruct info as [h data].
  now apply name_of_dict.
Qed.

Lemma ex_name : ti_name (mkTI (sha1 ex_data) ex_data) = Ret (Some (bs "x")).
Proof. vm_compute. reflexivity. Qed.

Lemma ex_check : bencoded_dict ex_data /\ check_bencode_dict ex_data = Ok tt /\
  check_bencode_dict (bs "d1:bi1e1:ai1ee") = Err DSyntax.
Proof. split; [exact ex_dict|]. split; vm_compute; reflexivity. Qed.
