From Verif Require Import Base BaseFacts M_Net M_Sha1 M_Tracker M_Torrent M_Template S_Template M_Save M_Types M_Http M_Magnet M_Extensions M_Messages M_Frame M_Peer M_Session M_Mse M_Connect M_GetInfo M_Config
  M_Nursery S_Nursery M_Resolve S_Resolve S_Quiet P_Resolve P_Resolve3 P_Resolve4 M_Get S_Get S_Bencode S_Wire S_Frame S_Session S_Download S_GetInfo P_Dht P_Download P_Frame P_Session P_GetInfo P_GetInfo2 P_GetInfo3 M_Write S_Write2 P_Write4 P_Get.

Lemma get_resolves show_url cfg pid m w s0 l s hT hP template cut src ts :
  length (mg_hash m) = 20%nat -> length pid = 20%nat -> (forall c, to_try m w c -> wf_ip (sa_ip (contact_addr c))) -> Forall wf_sa (file_nodes m w) ->
  reads src ts -> parse_template src = Ret (Ok template) -> (forall b, concat (cut b) = b) ->
  c_tracker_jobs cfg <> 0 -> c_peer_jobs cfg <> 0 -> (forall k, w_announce w k <> Panic) -> (forall c, to_try m w c -> clock_fits cfg w c) ->
  let fetch := contact_fetch cfg pid (mg_hash m) w in let hang := hangs cfg pid (mg_hash m) w in
  get_start cfg m w = Some s0 -> get_run cfg pid m w s0 l = Some (s, hT, hP) -> never_ends hang hP -> quiet sa_eqb contact_addr (w_announce w) fetch hang s ->
  fewer_hang contact_addr (w_announce w) hang (N.to_nat (c_peer_jobs cfg)) (mg_trackers m) (option_map fst (w_dht w)) ->
  (exists c, to_try m w c /\ forall c', to_try m w c' -> contact_addr c' = contact_addr c -> serves cfg pid (mg_hash m) w c') ->
  exists ops, get_cmd show_url cfg pid m w l template cut None = Some (Ret (ops, true)).
Proof.
  intros LH LP WF HN RD PT CUT N1 N0 CALM CF fetch hang H0 H NE Q FH (c & K & SV).
  assert (M1 : N.to_nat (c_tracker_jobs cfg) <> 0%nat) by lia. assert (M0 : N.to_nat (c_peer_jobs cfg) <> 0%nat) by lia.
  assert (FP : forall p, known (mg_trackers m) (option_map fst (w_dht w)) (w_announce w) p -> fetch p <> Panic).
  { intros p KP. apply (fetch_panics cfg pid m w LH LP WF p KP). apply CF. exact KP. }
  assert (X : exists i, r_main s = MReturned (Some i)).
  { apply (c_resolves sa_eqb contact_addr sa_spec (w_announce w) fetch hang _ _ (mg_trackers m) (option_map fst (w_dht w)) s0 l s hT hP M0 M1 H0 H CALM FP NE FH c K); [|exact Q].
    intros c' K' A. destruct (serves_fetch cfg pid m w LH LP WF c' K' (SV c' K' A)) as (G1 & meta & G2 & _). split; [exact G1|]. unfold fetch. rewrite G2. discriminate. }
  destruct X as (i & X). destruct (c_success _ _ sa_spec _ _ _ _ _ _ _ _ _ _ _ _ H0 H X) as (b & c0 & _ & _ & FC & _ & K0).
  destruct (fetch_authentic cfg pid m w LH LP WF c0 i K0 FC) as (A1 & A2 & A3).
  destruct (save_none pid m LH LP src ts template cut RD PT CUT i (map (url_string show_url) (mg_trackers m)) (file_nodes m w) (unix_now (w_clock w)) A1 A3 HN) as (doc & d & ops & _ & _ & _ & _ & SAVE & _).
  exists ops. unfold get_cmd. rewrite H0, H, X. rewrite (proj2 (not_hung cfg pid m w (finished hP)) NE), SAVE. reflexivity.
Qed.

(** A peer that goes silent after the greeting: with hypothesis [wf_ip i] only. *)
Lemma silent_waits i now t limit secs enc : wf_ip i -> now <= t -> t <= now + limit ->
  get_info (sha1 ex_data) (bs "-DM0070-aaaaaaaaaaaa") i None CPNever false limit secs now enc
    (mkDial (Some (0, Ok tt)) [(t, RData (ex_hello ++ ex_frame ex_shake))] [] 0 []) = Ret ([false], SWaiting).
Proof.
  intros W L1 L2. set (pid := bs "-DM0070-aaaaaaaaaaaa"). set (g := ex_hello ++ ex_frame ex_shake).
  assert (LP : length pid = 20%nat) by reflexivity.
  assert (HH : hello (sha1 ex_data) (be_bytes 8 1048580) ex_hello) by (exists (bs "-TR0000-bbbbbbbbbbbb"); split; [reflexivity|vm_compute; auto]).
  assert (L20 : length (sha1 ex_data) = 20%nat) by (destruct HH as (? & _ & _ & H & _); exact H).
  set (shake := mkEH None (Some [(bs "ut_metadata", 3)]) None (Some 40) None).
  assert (FS : frame_says 42 ex_shake (ExtHandshake shake)) by (apply recv_says; vm_compute; reflexivity).
  assert (HO : offers shake 3) by (exists [(bs "ut_metadata", 3)]; split; [reflexivity|left; reflexivity]).
  assert (EC : concat [g] = ex_hello ++ ex_frame ex_shake ++ []) by (cbn [concat]; unfold g; rewrite !app_nil_r; reflexivity).
  assert (HB : advertises (be_bytes 8 1048580) Bep10) by (vm_compute; discriminate).
  assert (FW : framed ex_shake (ex_frame ex_shake)) by (apply framed_ex; vm_compute; discriminate).
  destruct (connect_spec (sha1 ex_data) pid i [g] Silent L20 LP W) as [_ GC].
  destruct (connect_honest (sha1 ex_data) pid i [g] Silent _ _ _ _ _ _ _ LP W EC HH HB FW FS HO ltac:(lia)) as (out & cn & E & EZ & ET).
  rewrite E in *. cbn [fst snd] in GC.
  destruct GC as [[GL GS GR (h1 & reserved1 & w1 & f1 & shake1 & code & EC1 & HH1 & HB1 & FW1 & FS1 & HZ1 & HO1 & HG & HC1)] _].
  destruct (shake_registry _ _ _ FS1) as [HS _].
  destruct (fetch_from_run (sha1 ex_data) cn Silent GL GS ltac:(rewrite HZ1; exact HS) ltac:(exists code; split; [auto|lia])) as (fs' & rem & out2 & FR & EF & _).
  rewrite ET in FR.
  pose proof (frames_fun _ _ _ FR [] (Unfinished []) ltac:(constructor; left; cbn; lia)) as [-> ->].
  assert (FW0 : snd (fetch_from (sha1 ex_data) cn Silent) = SWaiting).
  { rewrite EF. cbn [snd]. rewrite EZ. unfold events. cbn [verdict end_event map app]. unfold get_metadata_info.
    destruct (fetch_start (sha1 ex_data) (eh_size shake)) as [st0 o0] eqn:EST.
    assert (exists s b j, st0 = Waiting s b j) as (s & b & j & ->).
    { assert (X : match fst (fetch_start (sha1 ex_data) (eh_size shake)) with Waiting _ _ _ => true | _ => false end = true) by (vm_compute; reflexivity).
      rewrite EST in X. cbn [fst] in X. clear EST. destruct st0 as [s b j|r|]; [exists s, b, j; reflexivity|discriminate X|discriminate X]. }
    reflexivity. }
  assert (EX : exchange (sha1 ex_data) pid i (now + 0) [] [(t, RData g)] = Ret (Some (t, Ok (cn, [])))).
  { cbn [exchange]. replace (snd (connect (sha1 ex_data) pid i [] Silent)) with (SWaiting : stage conn) by reflexivity. cbv beta iota zeta. cbn [exchange app].
    match goal with |- context [connect ?a ?b ?c ?d ?e] => replace (connect a b c d e) with (out, SDone (Ok cn)) by (symmetry; exact E) end. cbn [snd res_bind].
    rewrite N.add_0_r, N.max_r by exact L1. reflexivity. }
  assert (CP : connect_plain (sha1 ex_data) pid i now (within limit (mkDial (Some (0, Ok tt)) [(t, RData g)] [] 0 [])) = Ret (Some (t - now, Ok (cn, [])))).
  { unfold connect_plain, within. cbn [d_tcp d_reads]. rewrite (proj2 (N.leb_le 0 limit)) by lia. rewrite EX. reflexivity. }
  unfold get_info, run_connect.
  replace (get_crypto_mode None CPNever false) with (Ok Plain : res peer_error crypto_mode) by reflexivity.
  rewrite CP. unfold timeout. rewrite (proj2 (N.leb_le (t - now) limit)) by lia. cbn [pieces]. rewrite app_nil_r.
  replace (mkConn (cn_local cn) (cn_remote cn) (cn_ext cn) (cn_size cn) (cn_st cn) (cn_buf cn) (cn_reads cn)) with cn by (destruct cn; reflexivity).
  rewrite FW0. reflexivity.
Qed.

(** As many such peers as workers, and one that serves the metadata *)
Definition silent_contact (i : nat) : contact := (i, mkPeer (mkSA (V4 (167772160 + N.of_nat i)) 6881) None false).
Definition good_contact : contact := (0%nat, mkPeer (mkSA (V4 2130706433) 6881) None false).
Definition silent_dial : dial := mkDial (Some (0, Ok tt)) [(ns 1, RData (ex_hello ++ ex_frame ex_shake))] [] 0 [].
Definition crowd (n : nat) : world :=
  mkWorld (fun _ => Ret []) (Some (map silent_contact (seq 0 n) ++ [good_contact], []))
    (fun c => (0, (mkDial None [] [] 0 [], []), if sa_eqb (contact_addr c) (contact_addr good_contact) then (mkDial (Some (ns 1, Ok tt)) (ex_reads 0) [] 0 [], []) else (silent_dial, []))) 0.
Definition crowd_magnet : magnet := mkMagnet (sha1 ex_data) None [].
Lemma silent_addr i : N.of_nat i < 16777216 -> sa_eqb (contact_addr (silent_contact i)) (contact_addr good_contact) = false /\ wf_ip (sa_ip (contact_addr (silent_contact i))).
Proof.
  intros L. split.
  - apply Bool.not_true_iff_false. rewrite sa_eqb_eq. unfold contact_addr, silent_contact, good_contact. cbn [snd pr_addr]. intros E. apply (f_equal sa_ip) in E. cbn [sa_ip] in E. assert (X : forall a b, V4 a = V4 b -> a = b) by (intros a b Y; congruence). apply X in E. lia.
  - unfold contact_addr, silent_contact. cbn [snd pr_addr sa_ip wf_ip]. lia.
Qed.
Lemma crowd_blocks cfg : c_encrypt cfg = CPNever -> c_handshake_timeout cfg = 60 -> 0 < c_peer_jobs cfg -> c_peer_jobs cfg <= 16777216 ->
  let n := N.to_nat (c_peer_jobs cfg) in let pid := bs "-DM0070-aaaaaaaaaaaa" in let w := crowd n in let m := crowd_magnet in
  let fetch := contact_fetch cfg pid (mg_hash m) w in let hang := hangs cfg pid (mg_hash m) w in
  length (mg_hash m) = 20%nat /\ (forall c, to_try m w c -> wf_ip (sa_ip (contact_addr c)) /\ clock_fits cfg w c) /\ (forall k, w_announce w k <> Panic) /\
  to_try m w good_contact /\ (forall c', to_try m w c' -> contact_addr c' = contact_addr good_contact -> serves cfg pid (mg_hash m) w c') /\
  fewer_hang contact_addr (w_announce w) hang (S n) (mg_trackers m) (option_map fst (w_dht w)) /\
  exists s0 l s hT hP, get_start cfg m w = Some s0 /\ get_run cfg pid m w s0 l = Some (s, hT, hP) /\ never_ends hang hP /\
    quiet sa_eqb contact_addr (w_announce w) fetch hang s /\ r_main s = MLoop.
Proof.
  intros EN EH P0 P1 n pid w m fetch hang.
  assert (LN : N.of_nat n <= 16777216) by (unfold n; lia).
  assert (TT : forall c, to_try m w c -> In c (map silent_contact (seq 0 n)) \/ c = good_contact).
  { intros c [(_ & fd & E & IN)|(k & ps & K & _)]; [|cbn in K; lia]. cbn [w_dht w crowd option_map fst] in E. injection E as <-.
    apply in_app_iff in IN. destruct IN as [IN|[<-|[]]]; auto. }
  assert (SI : forall c, In c (map silent_contact (seq 0 n)) -> exists i, c = silent_contact i /\ N.of_nat i < 16777216).
  { intros c IN. apply in_map_iff in IN. destruct IN as (i & <- & IN). apply in_seq in IN. exists i. split; [reflexivity|lia]. }
  assert (HG : forall c, In c (map silent_contact (seq 0 n)) -> hang c = true).
  { intros c IN. destruct (SI c IN) as (i & -> & LI). destruct (silent_addr i LI) as (A1 & A2).
    unfold hang, hangs, contact_info. cbn [w_meet w crowd]. rewrite A1, EN, EH. unfold silent_dial. cbn [mg_hash m crowd_magnet]. fold pid. unfold pid.
    cbn [snd silent_contact pr_crypto]. rewrite get_info_w_nil, (silent_waits _ 0 (ns 1) (ns 60)); [reflexivity|exact A2|unfold ns; lia|unfold ns; lia]. }
  assert (NG : hang good_contact = false).
  { unfold hang, hangs, contact_info. cbn [w_meet w crowd]. replace (sa_eqb (contact_addr good_contact) (contact_addr good_contact)) with true by reflexivity.
    cbn [mg_hash m crowd_magnet snd good_contact pr_crypto]. rewrite EN, EH.
    rewrite get_info_w_nil, (get_info_plain (sha1 ex_data) pid (sa_ip (contact_addr good_contact)) ex_data eq_refl ltac:(vm_compute; reflexivity) (proj1 ex_session) eq_refl ltac:(vm_compute; discriminate)
      None CPNever (ns 60) (c_dh_timeout cfg) 0 _ _ (ns 1)); [reflexivity|auto|reflexivity|unfold ns; lia|exact (ex_plain 0)]. }
  split; [vm_compute; reflexivity|]. split; [|split; [discriminate|split; [|split; [|split]]]].
  - intros c K. split; [|intros now enc plain t0 E T; cbn [w_meet w crowd] in E; injection E as _ <- _; discriminate T].
    destruct (TT c K) as [IN| ->]; [|vm_compute; reflexivity]. destruct (SI c IN) as (i & -> & LI). apply (silent_addr i LI).
  - left. split; [reflexivity|]. eexists. split; [reflexivity|]. apply in_or_app. right. left. reflexivity.
  - intros c K A. destruct (TT c K) as [IN| ->].
    + exfalso. destruct (SI c IN) as (i & -> & LI). destruct (silent_addr i LI) as (A1 & _). rewrite A in A1. revert A1. rewrite (proj2 (sa_eqb_eq _ _) eq_refl). discriminate.
    + change (mg_hash m) with (sha1 ex_data). exists ex_data.
      split; [exact (proj1 ex_session)|]. split; [reflexivity|]. split; [vm_compute; discriminate|].
      exists 0, (mkDial None [] [] 0 [], []), (mkDial (Some (ns 1, Ok tt)) (ex_reads 0) [] 0 [], []), [false]. split; [unfold w, crowd; cbn [w_meet]; rewrite (proj2 (sa_eqb_eq _ _) eq_refl); reflexivity|]. apply obtainable_nil. left. split; [reflexivity|].
      split; [split; [reflexivity|auto]|]. exists (ns 1). split; [reflexivity|]. rewrite EH. split; [unfold ns; lia|exact (ex_plain 0)].
  - cbn [fewer_hang mg_trackers m crowd_magnet]. exists (map silent_contact (seq 0 n) ++ [good_contact]). split; [reflexivity|]. rewrite filter_app, app_length. cbn [filter]. rewrite NG. cbn [length].
    assert (X : forall l : list contact, (length (filter hang l) <= length l)%nat). { intros l. induction l as [|x l IH]; [constructor|]. cbn [filter]. destruct (hang x); cbn [length]; lia. }
    specialize (X (map silent_contact (seq 0 n))). rewrite map_length, seq_length in X. lia.
  - assert (NE : map silent_contact (seq 0 n) <> []). { unfold n. destruct (N.to_nat (c_peer_jobs cfg)) eqn:Z; [lia|discriminate]. }
    destruct (blocked (T := tracker) sa_eqb contact_addr (w_announce w) fetch hang (map silent_contact (seq 0 n)) good_contact NE HG) as (l & s & hP & R & F & Q & EM).
    exists (r_init_dht n (map silent_contact (seq 0 n) ++ [good_contact])), l, s, [], hP. rewrite map_length, seq_length in R.
    split; [reflexivity|]. split; [exact R|]. split; [|auto]. intros j r X. rewrite F in X. destruct X.
Qed.
