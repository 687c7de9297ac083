(** Executions of the command 'batch', for the refutations and examples *)
From Verif Require Import Base BaseFacts M_Net M_Sha1 M_Types M_Tracker M_Udp M_Torrent M_Utf8 M_Template S_Template P_Template S_Path M_Save P_Save S_Disk M_Magnet M_Config M_Http
  M_Nursery S_Nursery M_Resolve M_Batch M_Peer M_Session M_Mse M_Connect M_GetInfo M_Get S_Get P_Session P_Write4 P_Get P_Get2 P_Get3 M_BatchCmd S_BatchCmd S_Bencode M_Bencode P_Bencode S_Download S_TorrentFile P_Disk P_BatchCmd.

(** A peer that serves the metadata [d], of the length written [n] *)
Definition bx_frames (d n : bytes) : bytes :=
  n2b 19 :: bs "BitTorrent protocol" ++ be_bytes 8 1048580 ++ sha1 d ++ bs "-TR0000-bbbbbbbbbbbb" ++
  ex_frame ([x14; x00] ++ bs "d1:md11:ut_metadatai3ee13:metadata_sizei" ++ n ++ bs "ee") ++
  ex_frame ([x14; x2a] ++ bs "d8:msg_typei1e5:piecei0e10:total_sizei" ++ n ++ bs "ee" ++ d).
Definition bx_world (d n : bytes) : world :=
  mkWorld (fun _ => Ret [good_contact]) None (fun _ => (0, (mkDial None [] [] 0 [], []), (mkDial (Some (ns 1, Ok tt)) [(ns 2, RData (bx_frames d n))] [] 0 [], []))) 1700000000000000000.
Definition bx_trip (d n : bytes) : trip := mkTrip (bx_world d n) ex_sched (fun b => [b]) None.
(** Two torrents, both named "x" *)
Definition bx_data1 : bytes := bs "d6:lengthi1e4:name1:x12:piece lengthi1ee".
Definition bx_data2 : bytes := bs "d6:lengthi70000000e4:name1:x12:piece lengthi1ee".
Definition bx_trips (k : nat) : trip := if Nat.eqb k 0 then bx_trip bx_data1 (bs "40") else bx_trip bx_data2 (bs "47").
Definition bx_line (d : bytes) : bytes := bs "magnet:?xt=urn:btih:" ++ show_info_hash (sha1 d) ++ bs "&tr=udp://t:80".
Definition bx_content : bytes := bx_line bx_data1 ++ [x0a] ++ bx_line bx_data2 ++ [x0a].
(** What the url crate says about the URLs in that file *)
Definition bx_parse (s : bytes) : option url :=
  if bytes_eqb (firstn 8 s) (bs "magnet:?") then Some (mkUrl (bs "magnet") None None [] (Some (skipn 8 s)))
  else if bytes_eqb s (bs "udp://t:80") then Some (mkUrl (bs "udp") (Some (HDomain (bs "t"))) (Some 80) [] None) else None.

Definition bx_template : list elem := [Name; Literal (bs ".torrent")].
Definition bx_spawn : list cev := [CTask BMain; CTask BMain; CTask BMain].
Definition bx_begin (w : nat) : list cev := map (fun e => CTask (BWork e)) [KTake w; KCheck w; KStart w].
Definition bx_end (w : nat) : list cev := map (fun e => CTask (BWork e)) [KFinish w; KSend w].
Definition bx_done : list cev := [CTask BMain; CTask BMain] ++ map (fun w => CTask (BWork (KQuit w))) (seq 0 50) ++ [CTask BMain].
(** One after the other *)
Definition bx_seq : list cev :=
  bx_spawn ++ bx_begin 0 ++ map CRequest [0; 0; 0]%nat ++ bx_end 0 ++ bx_begin 1 ++ map CRequest [1; 1; 1]%nat ++ bx_end 1 ++ bx_done.
(** Both files are created before either is written. *)
Definition bx_mix : list cev :=
  bx_spawn ++ bx_begin 0 ++ bx_begin 1 ++ map CRequest [0; 0; 1; 1; 1; 0]%nat ++ bx_end 0 ++ bx_end 1 ++ bx_done.
Definition bx_run (l : list cev) := batch_cmd (fun _ => []) bx_parse ex_cfg ex_pid bx_template bx_content bx_trips l.

Definition bx_doc (d : bytes) : bytes := tf_bytes (tf_new (mkTI (sha1 d) d) [bs "udp://t:80"] [] 1700000000).
Definition bx_path : bytes := bs "x.torrent".
Definition bx_ops (d : bytes) : list op := [OMkdirs bx_path; OCreate bx_path; OWrite bx_path (bx_doc d)].
Lemma bx_doc_says d : bencoded_dict d -> exists doc v, d = encode (VDict v) /\ canonical (VDict v) /\ bx_doc d = encode (VDict doc) /\ canonical (VDict doc) /\ lookup (bs "info") doc = Some (VDict v).
Proof.
  intros B. destruct (file_says (mkTI (sha1 d) d) [bs "udp://t:80"] [] 1700000000 B (Forall_nil _)) as (doc & v & E & C & E2 & C2 & SY).
  exists doc, v. destruct SY as (_ & _ & _ & _ & I & _). auto.
Qed.
Lemma bx_dict1 : bencoded_dict bx_data1.
Proof. apply check_bencode_dict_iff. vm_compute. reflexivity. Qed.
Lemma bx_dict2 : bencoded_dict bx_data2.
Proof. apply check_bencode_dict_iff. vm_compute. reflexivity. Qed.
Definition bx_magnet (d : bytes) : magnet := mkMagnet (sha1 d) None [TUdp (mkUU (bs "t") 80 [])].
Lemma bx_magnets : batch_magnets bx_parse bx_content = [bx_magnet bx_data1; bx_magnet bx_data2].
Proof. vm_compute. reflexivity. Qed.
Lemma bx_sound k m : nth_error (batch_magnets bx_parse bx_content) k = Some m -> sound_world m (t_world (bx_trips k)).
Proof.
  intros E. assert (T : mg_trackers m = [TUdp (mkUU (bs "t") 80 [])]). { rewrite bx_magnets in E. destruct k as [|[|[|k]]]; try discriminate; injection E as <-; reflexivity. }
  assert (W : exists d n, t_world (bx_trips k) = bx_world d n). { unfold bx_trips. destruct (Nat.eqb k 0); cbn [t_world bx_trip]; eauto. }
  destruct W as (d & n & ->). split.
  - intros c X. destruct X as [(E1 & _)|(i & l & _ & E1 & X)]; [congruence|]. cbn in E1. injection E1 as <-. destruct X as [<-|[]]. vm_compute. reflexivity.
  - unfold file_nodes. rewrite T. constructor.
Qed.
Lemma bx_cut k b : concat (t_cut (bx_trips k) b) = b.
Proof. unfold bx_trips. destruct (Nat.eqb k 0); cbn; apply app_nil_r. Qed.
Definition bx_exits (l : list cev) (log : list (nat * op)) : Prop := exists st h, bx_run l = Some (st, h) /\ b_main (c_batch st) = BExit true /\ c_log st = log.
Lemma bx_exits_by l log : (match bx_run l with Some (s, _) => match b_main (c_batch s) with BExit true => Some (c_log s) | _ => None end | None => None end) = Some log -> bx_exits l log.
Proof.
  unfold bx_exits. destruct (bx_run l) as [[st h]|]; [|discriminate]. destruct (b_main (c_batch st)) as [| |[]|] eqn:E; try discriminate. intros [= <-]. eauto.
Qed.
Lemma bx_seq_run : bx_exits bx_seq (map (pair 0%nat) (bx_ops bx_data1) ++ map (pair 1%nat) (bx_ops bx_data2)).
Proof. apply bx_exits_by. vm_compute. reflexivity. Qed.
Definition bx_mixed : list (nat * op) :=
  [(0%nat, OMkdirs bx_path); (0%nat, OCreate bx_path); (1%nat, OMkdirs bx_path); (1%nat, OCreate bx_path); (1%nat, OWrite bx_path (bx_doc bx_data2)); (0%nat, OWrite bx_path (bx_doc bx_data1))].
Lemma bx_mix_run : bx_exits bx_mix bx_mixed.
Proof. apply bx_exits_by. vm_compute. reflexivity. Qed.
Lemma bx_other cwd log q : (forall r, In r log -> snd r = OMkdirs bx_path \/ snd r = OCreate bx_path \/ exists c, snd r = OWrite bx_path c) ->
  q <> locate cwd bx_path -> files_after cwd (fun _ => None) log q = None.
Proof.
  intros H N. apply (untouched cwd (fun _ => None) q log). intros [k o] X (p & E & L). cbn [snd] in E. subst o. destruct (H _ X) as [E|[E|(c & E)]]; cbn [snd] in E; try discriminate. injection E as ->. apply N. symmetry. exact L.
Qed.
Lemma bx_lost q c : files_after [] (fun _ => None) (map (pair 0%nat) (bx_ops bx_data1) ++ map (pair 1%nat) (bx_ops bx_data2)) q = Some c -> c = bx_doc bx_data2.
Proof.
  intros H. destruct (place_eq_dec q (locate [] bx_path)) as [->|N].
  - unfold files_after in H. cbn [bx_ops map app] in H. set (d1 := bx_doc bx_data1) in H. set (d2 := bx_doc bx_data2) in *. clearbody d1 d2.
    unfold disk_run in H. cbn [fold_left disk_step d_open d_file] in H. 
    repeat (first [rewrite reopen_same in H | rewrite put_same in H | rewrite reopen_other in H by discriminate]; cbn [d_open d_file] in H).
    injection H as <-. unfold write_at. cbn. rewrite ?firstn_nil, ?skipn_nil. cbn. now rewrite app_nil_r.
  - rewrite bx_other in H; [discriminate| |exact N]. intros r X. cbn in X. repeat (destruct X as [<-|X]; [cbn; eauto|]). destruct X.
Qed.
Definition bx_tail : bytes := bs "thi1eee".
Lemma bx_corrupt q c : files_after [] (fun _ => None) bx_mixed q = Some c -> c = bx_doc bx_data1 ++ bx_tail.
Proof.
  intros H. destruct (place_eq_dec q (locate [] bx_path)) as [->|N].
  - vm_compute in H. injection H as <-. vm_compute. reflexivity.
  - rewrite bx_other in H; [discriminate| |exact N]. intros r X. cbn in X. repeat (destruct X as [<-|X]; [cbn; eauto|]). destruct X.
Qed.
Lemma bx_corrupt_at : files_after [] (fun _ => None) bx_mixed [bs "x.torrent"] = Some (bx_doc bx_data1 ++ bx_tail).
Proof. vm_compute. reflexivity. Qed.
Lemma bx_hashes : sha1 bx_data1 <> sha1 bx_data2.
Proof. vm_compute. discriminate. Qed.
Lemma bx_not_first ts trackers nodes created path : ~ torrent_of ts (sha1 bx_data1) trackers nodes created path (bx_doc bx_data2).
Proof.
  intros (doc & d & C & H & C2 & SY & E & _). destruct (bx_doc_says _ bx_dict2) as (doc2 & v2 & E2 & V2 & D2 & DC & I). rewrite D2 in E.
  apply encode_inj in E; auto. injection E as <-. destruct SY as (_ & _ & _ & _ & I' & _). rewrite I in I'. injection I' as <-. rewrite <- E2 in H. exact (bx_hashes (eq_sym H)).
Qed.
Lemma bx_no_doc doc : canonical (VDict doc) -> bx_doc bx_data1 ++ bx_tail <> encode (VDict doc).
Proof.
  intros C E. destruct (bx_doc_says _ bx_dict1) as (doc1 & v1 & E1 & V1 & D1 & DC & I). rewrite D1 in E. rewrite <- (app_nil_r (encode (VDict doc))) in E.
  apply encode_app_inj in E; auto. destruct E as (_ & E). discriminate.
Qed.
Lemma nodup2 {X} (a b : X) : a <> b -> NoDup [a; b].
Proof. intros H. constructor; [|constructor; [exact (@in_nil _ _)|constructor]]. intros [E|[]]. exact (H (eq_sym E)). Qed.
Lemma bx_nodup : NoDup (map mg_hash [bx_magnet bx_data1; bx_magnet bx_data2]).
Proof. exact (nodup2 _ _ bx_hashes). Qed.

(** The only peer of the first link goes silent after the handshakes; the second link is as before. *)
Definition bx_silent : bytes :=
  n2b 19 :: bs "BitTorrent protocol" ++ be_bytes 8 1048580 ++ sha1 bx_data1 ++ bs "-TR0000-bbbbbbbbbbbb" ++
  ex_frame ([x14; x00] ++ bs "d1:md11:ut_metadatai3ee13:metadata_sizei40ee").
Definition bx_slow (k : nat) : trip :=
  if Nat.eqb k 0
  then mkTrip (mkWorld (fun _ => Ret [good_contact]) None (fun _ => (0, (mkDial None [] [] 0 [], []), (mkDial (Some (ns 1, Ok tt)) [(ns 2, RData bx_silent)] [] 0 [], []))) 0) (firstn 15 ex_sched) (fun b => [b]) None
  else bx_trips k.
