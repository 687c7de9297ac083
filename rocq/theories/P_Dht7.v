From Verif Require Import Base BaseFacts M_Net M_Tracker M_DhtMsg S_Bencode S_Wire S_Http S_DhtMsg P_Wire P_DhtMsg M_Dht S_Async S_Dht P_Nursery P_Dht P_Dht2 P_Dht3 P_Dht4 P_Dht5 P_Dht6.
From Coq Require Import Permutation Sorted.

(** *** The number of addresses *)
Lemma nodup_bounded l B : NoDup l -> (forall x, In x l -> x < B) -> N.of_nat (length l) <= B.
Proof.
  intros ND L. assert (LE : (length (map N.to_nat l) <= length (seq 0 (N.to_nat B)))%nat).
  { apply NoDup_incl_length.
    - apply FinFun.Injective_map_NoDup; [|exact ND]. intros x y. apply N2Nat.inj.
    - intros x X. apply in_map_iff in X. destruct X as (y & <- & Y). apply in_seq. specialize (L y Y). lia. }
  rewrite map_length, seq_length in LE. lia.
Qed.
Definition addr_code (a : sockaddr) : N := match sa_ip a with V4 n => n * 2 ^ 16 + sa_port a | V6 n => 2 ^ 48 + (n * 2 ^ 16 + sa_port a) end.
Lemma addr_code_lt a : wf_sa a -> addr_code a < 2 ^ 48 + 2 ^ 144.
Proof.
  unfold wf_sa, wf_ip, addr_code. intros (A & B). change 65536 with (2 ^ 16) in B. destruct (sa_ip a) as [n|n].
  - assert (n * 2 ^ 16 + sa_port a < 2 ^ 32 * 2 ^ 16) by nia. change (2 ^ 32 * 2 ^ 16) with (2 ^ 48) in *. lia.
  - assert (n * 2 ^ 16 + sa_port a < 2 ^ 128 * 2 ^ 16) by nia. change (2 ^ 128 * 2 ^ 16) with (2 ^ 144) in *. lia.
Qed.
Lemma addr_code_inj a b : wf_sa a -> wf_sa b -> addr_code a = addr_code b -> a = b.
Proof.
  assert (G : forall x y p q, p < 2 ^ 16 -> q < 2 ^ 16 -> x * 2 ^ 16 + p = y * 2 ^ 16 + q -> x = y /\ p = q).
  { intros x y p q P Q E. destruct (N.lt_trichotomy x y) as [L|[->|L]]; nia. }
  unfold wf_sa, wf_ip, addr_code. destruct a as [[x|x] p], b as [[y|y] q]; cbn [sa_ip sa_port]; change 65536 with (2 ^ 16); intros (A & B) (C & D) E.
  - apply G in E; auto. destruct E as (-> & ->). reflexivity.
  - assert (x * 2 ^ 16 + p < 2 ^ 32 * 2 ^ 16) by nia. change (2 ^ 32 * 2 ^ 16) with (2 ^ 48) in *. lia.
  - assert (y * 2 ^ 16 + q < 2 ^ 32 * 2 ^ 16) by nia. change (2 ^ 32 * 2 ^ 16) with (2 ^ 48) in *. lia.
  - apply N.add_cancel_l in E. apply G in E; auto. destruct E as (-> & ->). reflexivity.
Qed.
Lemma asked_total my_id v6 boot a h sid hash : history my_id v6 boot a h -> In (OLookup sid hash) h ->
  N.of_nat (length (asked h sid)) <= N.of_nat (length boot) + (2 ^ 48 + 2 ^ 144).
Proof.
  intros H X. destruct (asked_rest _ _ _ _ _ _ _ H X) as (rest & -> & ND & IN).
  assert (W : forall x, In x rest -> wf_sa x). { intros x Y. apply IN in Y. apply in_map_iff in Y. destruct Y as (n & <- & Y). apply (told_wf _ _ _ _ _ _ _ H Y). }
  rewrite app_length, Nat2N.inj_add. apply N.add_le_mono_l. rewrite <- (map_length addr_code rest). apply nodup_bounded.
  - clear IN H. induction ND as [|x l NI ND IH]; cbn [map]; constructor.
    + intros Y. apply in_map_iff in Y. destruct Y as (y & E & Y). apply addr_code_inj in E; [subst; contradiction|apply W; right; exact Y|apply W; left; reflexivity].
    + apply IH. intros y Y. apply W. right. exact Y.
  - intros x Y. apply in_map_iff in Y. destruct Y as (y & <- & Y). apply addr_code_lt. apply W. exact Y.
Qed.

(** *** An adversary: each reply tells of one more node, whose id is the target's *)
Definition evil_addr (k : N) : sockaddr := mkSA (V4 k) 6881.
Definition evil_node (hash : bytes) (k : N) : node := mkNode hash (V4 k) 6881.
Definition evil_reply (hash txn : bytes) (k : N) : bytes :=
  encode (VDict [(bs "r", VDict [(bs "id", VBytes hash); (bs "nodes", VBytes (hash ++ be_bytes 4 k ++ be_bytes 2 6881))]); (bs "t", VBytes txn); (bs "y", VBytes (bs "r"))]).
Lemma evil_dict hash txn k : let d := [(bs "r", VDict [(bs "id", VBytes hash); (bs "nodes", VBytes (hash ++ be_bytes 4 k ++ be_bytes 2 6881))]); (bs "t", VBytes txn); (bs "y", VBytes (bs "r"))] in
  canonical (VDict d) /\ (depth (VDict d) <= 2048)%nat.
Proof.
  cbv zeta. split.
  - cbn [canonical map fst snd fold_right]. conjs; auto; repeat constructor.
  - cbn [depth fold_right snd]. lia.
Qed.
Lemma text_r : text (VBytes (bs "r")) (bs "r").
Proof. split; [reflexivity|]. exists [114]. split; [constructor; [left; reflexivity|constructor]|reflexivity]. Qed.
Lemma evil_prescan hash txn k : prescan (evil_reply hash txn k) = Some (txn, TResponse).
Proof.
  apply prescan_iff. destruct (evil_dict hash txn k) as (C & D). unfold evil_reply. eexists _, []. rewrite app_nil_r. split; [reflexivity|]. split; [exact C|]. split; [exact D|].
  split; [reflexivity|exact text_r].
Qed.
Lemma evil_decode hash txn k : length hash = 20%nat -> k < 2 ^ 32 -> decode_response (evil_reply hash txn k) = Ok (mkGPR txn None hash [] [evil_node hash k] [] None None).
Proof.
  intros L K. apply response_iff. destruct (evil_dict hash txn k) as (C & D). eexists. split; [split; [reflexivity|split; [exact C|exact D]]|].
  unfold response_says. conjs; [exact text_r|reflexivity|reflexivity|reflexivity|].
  exists [(bs "id", VBytes hash); (bs "nodes", VBytes (hash ++ be_bytes 4 k ++ be_bytes 2 6881))], None, (Some [evil_node hash k]), None.
  conjs; try reflexivity.
  - unfold field. cbn. split; [reflexivity|exact L].
  - unfold field. cbn -[be_bytes]. exists [hash ++ be_bytes 4 k ++ be_bytes 2 6881]. split; [cbn -[be_bytes]; rewrite app_nil_r; reflexivity|]. constructor; [|constructor].
    exists (be_bytes 4 k ++ be_bytes 2 6881). split; [reflexivity|]. split; [exact L|]. split; [|exact Logic.I].
    exists (be_bytes 4 k), (be_bytes 2 6881). split; [reflexivity|]. unfold address_bytes. cbn [sa_ip sa_port nd_ip nd_port evil_node]. conjs.
    + apply be_bytes_length.
    + rewrite be_be_val, be_val_be_bytes. apply N.mod_small. exact K.
    + reflexivity.
    + reflexivity.
Qed.

Section A.
Context (my_id : bytes) (v6 : bool) (hash : bytes) (HL : length hash = 20%nat).
Local Notation boot := [evil_addr 0].
Local Notation history := (history my_id v6 boot).
(** After [k] replies. *)
Definition chain (k : N) (a : actor) (h : list aobs) : Prop :=
  history a h /\ In (OLookup 0 hash) h /\ N.of_nat (length (asked h 0)) = k + 1 /\
  exists t s timers txn, a = mkA my_id v6 t [(0%nat, s)] [0%nat] 1 timers boot true /\ t < 2 ^ 32 /\
    ls_id s = my_id /\ ls_v6 s = v6 /\ ls_to_query s = [] /\ ls_in_flight s = [(evil_addr k, txn)] /\ sp_hash (ls_nodes s) = hash /\
    (sp_nodes (ls_nodes s) = [] \/ exists b, sp_nodes (ls_nodes s) = [(distance hash hash, b)] /\ Forall (fun i => ni_queried i = true) b) /\
    (forall n, In n (map snd (sp_addr (ls_nodes s))) -> nd_id n = hash) /\
    (forall j, k < j -> addr_get (sp_addr (ls_nodes s)) (evil_addr j) = None).
Lemma encode_ok q : match gpq_encode q with Ret _ => true | Panic => false end = true.
Proof. destruct (query_encodes q) as (d & -> & _). reflexivity. Qed.
(** One query goes out and stays in flight. *)
Lemma send_one t s s0 timers k : ls_to_query s = [evil_addr k] -> ls_in_flight s = [] ->
  send_outgoing (mkA my_id v6 t [(0%nat, s0)] [0%nat] 1 timers boot true) 0 s [] =
  (mkA my_id v6 (txn_next t) [(0%nat, mkS (ls_id s) (ls_v6 s) (ls_peers s) (ls_nodes s) [] [(evil_addr k, txn_bytes t)])] [0%nat] 1 (key_insert (evil_addr k, txn_bytes t) timers) boot true,
   [OQuery 0 (evil_addr k) (query_for s (txn_bytes t)) true]).
Proof.
  intros Q F. unfold send_outgoing, get_outgoing. rewrite Q, F. cbn [outgoing_go key_insert key_mem existsb app a_id a_v6 a_txn a_sessions a_senders a_next a_timers a_boot a_running].
  cbn [send_all]. unfold send_query. rewrite encode_ok. cbn [sa_ip evil_addr andb tl a_id a_v6 a_txn a_sessions a_senders a_next a_timers a_boot a_running query_for gq_txn].
  unfold postprocess. cbn [a_sessions ses_set ses_get map find option_map fst snd Nat.eqb get_result ls_in_flight]. rewrite app_nil_r. reflexivity.
Qed.
Lemma chain_start : exists a h, chain 0 a h.
Proof.
  set (a0 := actor_start my_id v6 boot).
  assert (E : exists a o, astep a0 (ALookup hash []) = Some (a, o) /\ a = mkA my_id v6 (txn_next 0) [(0%nat, mkS my_id v6 [] (space_new hash) [] [(evil_addr 0, txn_bytes 0)])] [0%nat] 1 [(evil_addr 0, txn_bytes 0)] boot true /\
    exists q, o = [OLookup 0 hash; OQuery 0 (evil_addr 0) q true]).
  { unfold astep, a0, actor_start. cbn [a_running a_next a_id a_v6 a_txn a_sessions a_senders a_timers a_boot app].
    rewrite (send_one 0 (session_new hash my_id v6 boot) (session_new hash my_id v6 boot) [] 0 eq_refl eq_refl).
    eexists _, _. split; [reflexivity|]. split; [reflexivity|]. eexists. reflexivity. }
  destruct E as (a & o & E & EA & q & EO). exists a, o. split.
  { exists [ALookup hash []]. split; [constructor; [exact HL|constructor]|]. cbn [arun]. fold a0. rewrite E, app_nil_r. reflexivity. }
  subst o. split; [left; reflexivity|]. split; [reflexivity|]. exists (txn_next 0). eexists _, _, _. split; [exact EA|]. cbn [ls_id ls_v6 ls_to_query ls_in_flight ls_nodes space_new sp_hash sp_nodes sp_addr].
  conjs; try reflexivity.
  - left. reflexivity.
  - intros n [].
Qed.
Lemma distance_refl_eqb : bytes_eqb (distance hash hash) (distance hash hash) = true.
Proof. destruct (bytes_eqb_spec (distance hash hash) (distance hash hash)); congruence. Qed.
Lemma mark_all_queried b : Forall (fun i => ni_queried i = true) b -> forall k, exists k1, mark_queried k b = (k1, [], b).
Proof.
  induction 1 as [|i b Q _ IH]; intros [|k]; cbn [mark_queried]; eauto. destruct (IH k) as (k1 & ->). rewrite Q. eauto.
Qed.
Lemma mark_new n r b : Forall (fun i => ni_queried i = true) b -> exists k1, mark_queried CLOSEST (mkInfo n false r :: b) = (k1, [n], mkInfo n true r :: b).
Proof. intros Q. unfold CLOSEST. destruct (mark_all_queried b Q 7) as (k1 & E). exists k1. cbn -[Nat.eqb] in *. rewrite E. reflexivity. Qed.
Lemma chain_step k a h : chain k a h -> k + 1 < 2 ^ 32 -> exists a' h', chain (k + 1) a' h'.
Proof.
  intros (H & LK & LEN & t & s & timers & txn & EA & TL & E1 & E2 & E3 & E4 & E5 & E6 & E7 & E8) KL.
  set (msg := evil_reply hash txn (k + 1)). set (n := evil_node hash (k + 1)).
  (* the reply, as the session sees it *)
  assert (SM : exists sp, session_message s (evil_addr k) txn msg = Some (mkS my_id v6 (ls_peers s) sp [evil_addr (k + 1)] [], Ok (mkGPR txn None hash [] [n] [] None None)) /\
    sp_hash sp = hash /\ (exists b, sp_nodes sp = [(distance hash hash, b)] /\ Forall (fun i => ni_queried i = true) b) /\ sp_addr sp = (evil_addr (k + 1), n) :: sp_addr (ls_nodes s)).
  { unfold session_message. rewrite E4. assert (KM : key_mem (evil_addr k, txn) [(evil_addr k, txn)] = true) by (apply key_mem_in; left; reflexivity). rewrite KM.
    assert (KR : key_remove (evil_addr k, txn) [(evil_addr k, txn)] = []). { unfold key_remove. cbn [filter]. rewrite (proj2 (key_eqb_eq _ _) eq_refl). reflexivity. }
    rewrite KR. unfold msg. rewrite (evil_decode hash txn (k + 1) HL KL). fold n. cbn [gr_nodes gr_nodes6 gr_values app fold_left peers_extend].
    unfold space_add. change (node_address n) with (evil_addr (k + 1)). rewrite (E8 (k + 1)) by lia. rewrite E5. change (nd_id n) with hash.
    set (kn := addr_get (sp_addr (ls_nodes s)) (evil_addr k)).
    assert (B : exists b, bucket_push (sp_nodes (ls_nodes s)) (distance hash hash) (mkInfo n false false) = [(distance hash hash, mkInfo n false false :: b)] /\ Forall (fun i => ni_queried i = true) b).
    { destruct E6 as [->|(b & -> & Q)]; [exists []; auto|]. exists b. cbn [bucket_push]. rewrite distance_refl_eqb. auto. }
    destruct B as (b & B & Q). rewrite B.
    assert (M : exists r, match kn with Some n0 => mark_responsive (nd_id n0) (mkSpace hash [(distance hash hash, mkInfo n false false :: b)] ((evil_addr (k + 1), n) :: sp_addr (ls_nodes s))) | None => mkSpace hash [(distance hash hash, mkInfo n false false :: b)] ((evil_addr (k + 1), n) :: sp_addr (ls_nodes s)) end = mkSpace hash [(distance hash hash, mkInfo n false r :: b)] ((evil_addr (k + 1), n) :: sp_addr (ls_nodes s))).
    { destruct kn as [m|] eqn:EK; [|exists false; reflexivity]. exists true. assert (IDM : nd_id m = hash).
      { apply E7. unfold kn, addr_get in EK. destruct (find _ (sp_addr (ls_nodes s))) as [[x y]|] eqn:EF; [|discriminate]. cbn in EK. injection EK as ->. apply find_some in EF. apply in_map_iff. exists (x, m). split; [reflexivity|]. tauto. }
      rewrite IDM. unfold mark_responsive. cbn [sp_hash sp_nodes sp_addr map fst snd]. rewrite distance_refl_eqb. cbn [mark_first ni_node n evil_node nd_id ni_queried].
      destruct (bytes_eqb_spec hash hash); [reflexivity|congruence]. }
    destruct M as (r & ->). unfold closest_unqueried. cbn [sp_nodes sp_hash sp_addr unqueried_go]. destruct (mark_new n r b Q) as (k1 & MQ).
    rewrite MQ. cbn [ni_queried ni_node ni_responsive app map]. eexists. rewrite E1, E2, E3. split; [reflexivity|]. cbn [sp_hash sp_nodes sp_addr]. split; [reflexivity|]. split; [|reflexivity].
    eexists. split; [reflexivity|]. constructor; [reflexivity|exact Q]. }
  destruct SM as (sp & SM & P1 & P2 & P3).
  assert (ST : exists q, astep a (ADatagram (evil_addr k) msg (Some 0%nat) []) =
    Some (mkA my_id v6 (txn_next t) [(0%nat, mkS my_id v6 (ls_peers s) sp [] [(evil_addr (k + 1), txn_bytes t)])] [0%nat] 1 (key_insert (evil_addr (k + 1), txn_bytes t) timers) boot true,
          [OReply 0 (evil_addr k) txn (Ok (mkGPR txn None hash [] [n] [] None None)); OQuery 0 (evil_addr (k + 1)) q true])).
  { rewrite EA. unfold astep. cbn [a_running a_sessions]. unfold msg at 1. rewrite evil_prescan. cbn [ses_get find fst snd Nat.eqb option_map]. rewrite SM. unfold with_sessions.
    cbn [a_id a_v6 a_txn a_sessions a_senders a_next a_timers a_boot a_running ses_set map fst snd Nat.eqb]. rewrite (send_one t _ _ timers (k + 1)) by reflexivity. eexists. reflexivity. }
  destruct ST as (q & ST). assert (H' := history_step _ _ _ _ _ (ADatagram (evil_addr k) msg (Some 0%nat) []) _ _ H Logic.I ST). eexists _, _. split; [exact H'|]. split; [apply in_or_app; left; exact LK|]. split.
  { rewrite asked_app, app_length. change (length (asked _ 0)) with 1%nat at 2. lia. }
  eexists _, _, _, _. split; [reflexivity|]. cbn [ls_id ls_v6 ls_to_query ls_in_flight ls_nodes]. conjs; try reflexivity.
  - apply N.mod_lt. discriminate.
  - exact P1.
  - right. exact P2.
  - rewrite P3. cbn [map snd]. intros m [<-|X]; [reflexivity|apply E7; exact X].
  - intros j J. rewrite P3. unfold addr_get. cbn [find fst]. destruct (sa_eqb (evil_addr (k + 1)) (evil_addr j)) eqn:EQ; [|apply E8; lia].
    apply sa_eqb_eq in EQ. injection EQ as EQ. lia.
Qed.
Lemma chain_exists k : k < 2 ^ 32 -> exists a h, chain k a h.
Proof.
  induction k as [|k IH] using N.peano_ind; intros L; [apply chain_start|]. destruct IH as (a & h & C); [lia|]. rewrite <- N.add_1_r in *. eapply chain_step; eauto.
Qed.
Lemma evil_queries B : B < 2 ^ 32 -> exists a h, history a h /\ In (OLookup 0 hash) h /\ B < N.of_nat (length (asked h 0)).
Proof. intros L. destruct (chain_exists B L) as (a & h & H & LK & LEN & _). exists a, h. split; [exact H|]. split; [exact LK|]. lia. Qed.
End A.
Lemma small_bound_refuted my_id v6 hash B : length hash = 20%nat -> B < 2 ^ 32 ->
  exists boot a h sid, history my_id v6 boot a h /\ In (OLookup sid hash) h /\ length boot = 1%nat /\ B < N.of_nat (length (asked h sid)).
Proof. intros L LB. destruct (evil_queries my_id v6 hash L B LB) as (a & h & H & K & G). exists [evil_addr 0], a, h, 0%nat. auto. Qed.
