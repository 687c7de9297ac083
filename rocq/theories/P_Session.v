From Verif Require Import Base BaseFacts S_Bencode P_Bencode S_Utf8 S_Wire P_Wire P_PeerWire P_ExtWire S_Download P_Peer P_Download
  M_Net M_Torrent M_Sha1 M_Extensions M_Messages M_Frame S_Frame P_Frame M_Peer M_Session S_Session.

(** ** Reading *)
Lemma read_exact_spec e : forall reads n acc,
  match read_exact n acc reads e with
  | RDone buf reads' => exists x, buf = acc ++ x /\ length x = n /\ concat reads = x ++ concat reads'
  | RFail => (length (concat reads) < n)%nat /\ e <> Silent
  | RPending => (length (concat reads) < n)%nat /\ e = Silent
  end.
Proof.
  induction reads as [|c reads IH]; intros n acc; destruct n as [|n]; cbn [read_exact].
  - exists []. rewrite app_nil_r. auto.
  - destruct e; cbn; (split; [lia|congruence]).
  - exists []. rewrite app_nil_r. auto.
  - destruct (Nat.leb_spec (length c) (S n)) as [L|L].
    + specialize (IH (S n - length c)%nat (acc ++ c)). cbn [concat]. rewrite app_length.
      destruct (read_exact (S n - length c) (acc ++ c) reads e).
      * destruct IH as (x & -> & LX & E). exists (c ++ x). rewrite app_length, E, <- !app_assoc. repeat split; auto. lia.
      * destruct IH. split; auto. lia.
      * destruct IH. split; auto. lia.
    + exists (firstn (S n) c). repeat split; [rewrite firstn_length; lia|]. cbn [concat]. rewrite app_assoc, firstn_skipn. reflexivity.
Qed.

Lemma read_exact_seg n r1 r2 e : concat r1 = concat r2 ->
  match read_exact n [] r1 e, read_exact n [] r2 e with
  | RDone b1 x1, RDone b2 x2 => b1 = b2 /\ concat x1 = concat x2
  | RFail, RFail | RPending, RPending => True
  | _, _ => False
  end.
Proof.
  intros E. pose proof (read_exact_spec e r1 n []) as H1. pose proof (read_exact_spec e r2 n []) as H2.
  destruct (read_exact n [] r1 e) as [b1 x1| |], (read_exact n [] r2 e) as [b2 x2| |]; auto; cbn [app] in *; try rewrite E in *.
  - destruct H1 as (y1 & -> & L1 & E1), H2 as (y2 & -> & L2 & E2). rewrite E1 in E2. apply app_len_inj in E2 as [-> ->]; [|congruence]. auto.
  - destruct H1 as (y1 & -> & L1 & E1), H2 as [L2 _]. rewrite E1, app_length in L2. lia.
  - destruct H1 as (y1 & -> & L1 & E1), H2 as [L2 _]. rewrite E1, app_length in L2. lia.
  - destruct H2 as (y1 & -> & L1 & E1), H1 as [L2 _]. rewrite E1, app_length in L2. lia.
  - destruct H1, H2. congruence.
  - destruct H2 as (y1 & -> & L1 & E1), H1 as [L2 _]. rewrite E1, app_length in L2. lia.
  - destruct H1, H2. congruence.
Qed.

Lemma framed_next_seg e r1 r2 : concat r1 = concat r2 ->
  match framed_next Head [] r1 e, framed_next Head [] r2 e with
  | (Frame f1, s1, b1, x1), (Frame f2, s2, b2, x2) =>
      f1 = f2 /\ s1 = Head /\ s2 = Head /\ total s1 b1 x1 = total s2 b2 x2
  | (q1, _, _, _), (q2, _, _, _) => q1 = q2
  end.
Proof.
  intros E. pose proof (framed_next_spec e r1 Head [] I) as H1. pose proof (framed_next_spec e r2 Head [] I) as H2.
  assert (ET : total Head [] r1 = total Head [] r2) by (unfold total; cbn; auto). rewrite ET in H1.
  assert (G : forall f h t rem, frames (h ++ f ++ t) [] rem -> length h = 4%nat -> be h = blen f -> blen f <= 65535 -> False).
  { intros f h t rem F L B M. inversion F as [? U|h' t' L' B' EQ|]; subst.
    - eauto using unfinished_not_frame.
    - apply app_len_inj in EQ as [-> EQ]; [|congruence]. lia. }
  destruct (framed_next Head [] r1 e) as [[[q1 s1] b1] x1], (framed_next Head [] r2 e) as [[[q2 s2] b2] x2].
  assert (D : (exists f1 f2, q1 = Frame f1 /\ q2 = Frame f2) \/ ((forall f, q1 <> Frame f) /\ (forall f, q2 <> Frame f))).
  { destruct q1, q2; eauto; try (right; split; congruence); exfalso.
    all: try (destruct H1 as (-> & h & E1 & L1 & B1 & M1), H2 as (rem & F & _); rewrite E1 in F; eauto).
    all: destruct H2 as (-> & h & E1 & L1 & B1 & M1), H1 as (rem & F & _); rewrite E1 in F; eauto. }
  destruct D as [(f1 & f2 & -> & ->)|[N1 N2]].
  - destruct H1 as (-> & h1 & E1 & L1 & B1 & M1), H2 as (-> & h2 & E2 & L2 & B2 & M2).
    rewrite E1 in E2. apply app_len_inj in E2 as [-> E2]; [|congruence]. apply app_len_inj in E2 as [-> E2]; [auto|].
    unfold blen in *. lia.
  - assert (H1' : exists rem, frames (total Head [] r2) [] rem /\ q1 = verdict rem e) by (destruct q1; auto; now destruct (N1 f)).
    assert (H2' : exists rem, frames (total Head [] r2) [] rem /\ q2 = verdict rem e) by (destruct q2; auto; now destruct (N2 f)).
    destruct H1' as (m1 & F1 & ->), H2' as (m2 & F2 & ->). destruct (frames_fun _ _ _ F1 _ _ F2) as [_ ->].
    destruct (verdict m2 e); auto. now destruct (N1 f).
Qed.

Lemma framed_all_seg e b1 b2 r1 r2 n1 n2 : total Head b1 r1 = total Head b2 r2 ->
  (length (total Head b1 r1) < n1)%nat -> (length (total Head b2 r2) < n2)%nat ->
  framed_all n1 Head b1 r1 e = framed_all n2 Head b2 r2 e.
Proof.
  intros E L1 L2. destruct (framed_all_spec e n1 Head b1 r1 I L1) as (m1 & F1 & V1), (framed_all_spec e n2 Head b2 r2 I L2) as (m2 & F2 & V2).
  rewrite E in F1. destruct (frames_fun _ _ _ F1 _ _ F2) as [E1 E2]. subst m2.
  destruct (framed_all n1 Head b1 r1 e), (framed_all n2 Head b2 r2 e). cbn in *. congruence.
Qed.

(** ** The exchange does not depend on segmentation *)
Definition same_conn (c1 c2 : conn) : Prop :=
  cn_local c1 = cn_local c2 /\ cn_remote c1 = cn_remote c2 /\ cn_ext c1 = cn_ext c2 /\ cn_size c1 = cn_size c2 /\
  cn_st c1 = Head /\ cn_st c2 = Head /\ total Head (cn_buf c1) (cn_reads c1) = total Head (cn_buf c2) (cn_reads c2).
Definition same_stage (s1 s2 : stage conn) : Prop :=
  match s1, s2 with
  | SDone (Ok c1), SDone (Ok c2) => same_conn c1 c2
  | SDone (Err x), SDone (Err y) => x = y
  | SWaiting, SWaiting | SPanicked, SPanicked => True
  | _, _ => False
  end.

Lemma connect_seg ih pid i r1 r2 e : concat r1 = concat r2 ->
  fst (connect ih pid i r1 e) = fst (connect ih pid i r2 e) /\
  same_stage (snd (connect ih pid i r1 e)) (snd (connect ih pid i r2 e)).
Proof.
  intros E. unfold connect. pose proof (read_exact_seg 68 r1 r2 e E) as R.
  destruct (read_exact 68 [] r1 e) as [b1 x1| |], (read_exact 68 [] r2 e) as [b2 x2| |]; cbn [fst snd]; try (destruct R); try (split; reflexivity).
  subst b2. destruct (handshake_decode b1) as [h|]; [|split; reflexivity].
  destruct (negb (bytes_eqb (hs_hash h) ih)); [split; reflexivity|].
  destruct (negb (ext_has _ Bep10)); [split; reflexivity|].
  destruct local_registry as [l|]; [|split; reflexivity].
  destruct (channel_send reg_new _) as [[w|]|]; try (split; reflexivity).
  pose proof (framed_next_seg e x1 x2 H0) as F.
  destruct (framed_next Head [] x1 e) as [[[q1 s1] d1] y1], (framed_next Head [] x2 e) as [[[q2 s2] d2] y2].
  assert (D : (exists f, q1 = Frame f /\ q2 = Frame f /\ s1 = Head /\ s2 = Head /\ total s1 d1 y1 = total s2 d2 y2) \/
              ((forall f, q1 <> Frame f) /\ q1 = q2)).
  { destruct q1, q2; try (right; split; congruence); try discriminate. left. destruct F as (-> & A & B & C). eauto 10. }
  clear F. destruct D as [(f & -> & -> & -> & -> & ET)|[N ->]].
  - destruct (recv_event l f) as [m|]; [|split; reflexivity]. destruct m; try (split; reflexivity).
    destruct (eh_registry h0) as [rm|]; [|split; reflexivity].
    destruct (negb (reg_contains rm Metadata)); [split; reflexivity|].
    destruct (ext_has _ Fast).
    + destruct (channel_send rm (Core HaveNone)) as [[w2|]|]; split; try reflexivity. repeat split; auto.
    + split; [reflexivity|]. repeat split; auto.
  - destruct q2; try (split; reflexivity). now destruct (N f).
Qed.

Lemma fetch_loop_same c1 c2 : cn_local c1 = cn_local c2 -> cn_remote c1 = cn_remote c2 ->
  forall fs st r, fetch_loop c1 st fs r = fetch_loop c2 st fs r.
Proof.
  intros E1 E2. induction fs as [|f fs IH]; intros st r; destruct st; cbn [fetch_loop]; auto.
  rewrite E1, E2. destruct (fetch_step _ _) as [st' ms]. destruct (send_all (cn_remote c2) ms) as [o [[x|x]|]]; auto.
  now rewrite IH.
Qed.

Lemma fetch_from_seg ih c1 c2 e : same_conn c1 c2 -> fetch_from ih c1 e = fetch_from ih c2 e.
Proof.
  intros (E1 & E2 & E3 & E4 & E5 & E6 & E7). unfold fetch_from. rewrite E2, E4, E5, E6.
  destruct (fetch_start ih (cn_size c2)) as [st ms]. destruct (send_all (cn_remote c2) ms) as [o [[x|x]|]]; auto.
  rewrite (framed_all_seg e _ (cn_buf c2) _ (cn_reads c2) _ (S (length (cn_buf c2 ++ concat (cn_reads c2)))) E7);
    [|unfold total; cbn; lia..].
  destruct (framed_all _ Head (cn_buf c2) (cn_reads c2) e) as [fs r]. now rewrite (fetch_loop_same c1 c2 E1 E2).
Qed.

Lemma session_seg ih pid i r1 r2 e : concat r1 = concat r2 -> session ih pid i r1 e = session ih pid i r2 e.
Proof.
  intros E. unfold session. destruct (connect_seg ih pid i r1 r2 e E) as [E1 E2].
  destruct (connect ih pid i r1 e) as [o1 s1], (connect ih pid i r2 e) as [o2 s2]. cbn [fst snd] in *. subst o2.
  destruct s1 as [[c1|x1]| |], s2 as [[c2|x2]| |]; cbn in E2; try tauto; try congruence.
  now rewrite (fetch_from_seg ih c1 c2 e E2).
Qed.

(** ** Messages on the wire *)
Definition local_reg : registry := mkReg [(Metadata, 42)] [(42, Metadata)].
Lemma local_registry_eq : local_registry = Ret local_reg.
Proof. reflexivity. Qed.

Lemma wire_ext id p s : core_wire (Extended id p) s <-> id < 256 /\ s = n2b 20 :: n2b id :: p.
Proof.
  split.
  - intros (b & HI & ->). inversion HI as [|k n l c r L B HR]; subst. inversion HR; subst. clear HI HR.
    destruct c as [|c [|? ?]]; cbn in L; try discriminate. clear L.
    cbn [be length]. change (256 ^ N.of_nat 0) with 1. rewrite N.mul_1_r, N.add_0_r. split; [apply b2n_bound|]. now rewrite n2b_b2n.
  - intros [H ->]. exists [n2b id]. split; [|reflexivity]. change [n2b id] with ([n2b id] ++ []). constructor; [reflexivity| |constructor].
    cbn [be length]. rewrite b2n_n2b_small by auto. change (256 ^ N.of_nat 0) with 1. lia.
Qed.

Lemma core_decode_ext f id p : core_decode f = Ok (Extended id p) <-> id < 256 /\ f = n2b 20 :: n2b id :: p.
Proof.
  destruct core_codec as (_ & _ & H). rewrite H, wire_ext. split; [tauto|]. intros [B ->]. split; auto.
  cbn. repeat constructor. exact B.
Qed.

Lemma core_decode_other f m : (forall id p, m <> Extended id p) -> (core_decode f = Ok m <-> core_wire m f).
Proof.
  intros N. destruct core_codec as (_ & _ & H). rewrite H. split; [tauto|]. intros W. split; auto. now apply core_wire_unique in W.
Qed.

Lemma recv_says f m : recv_event local_reg f = Ok m <-> frame_says 42 f m.
Proof.
  unfold recv_event, msg_decode. split.
  - destruct (core_decode f) as [c|] eqn:E; cbn [res_bind]; [|discriminate].
    assert (D : (exists id p, c = Extended id p) \/ (forall id p, c <> Extended id p)) by (destruct c; eauto; right; congruence).
    destruct D as [(id & p & ->)|N].
    + apply core_decode_ext in E as [B ->]. destruct (N.eqb_spec id 0) as [->|NZ].
      * destruct (eh_decode p) as [h|] eqn:EH; cbn [res_bind]; [|discriminate]. intros X. apply Ok_inj in X. subst m.
        apply eh_decode_iff in EH as (d & -> & C & D & S). exists d. auto.
      * unfold reg_for_message_id, local_reg. cbn [from_code get_ext]. destruct (N.eqb_spec id 42) as [->|]; [|discriminate].
        destruct (mm_decode p) as [h|] eqn:EH; cbn [res_bind]; [|discriminate]. intros X. apply Ok_inj in X. subst m.
        apply mm_decode_iff in EH as (d & rest & -> & C & D & S). exists d, rest. auto.
    + intros X. assert (X' : m = Core c) by (destruct c; try (now destruct (N msg_id payload)); now apply Ok_inj in X). subst m.
      apply core_decode_other in E; auto. cbn [frame_says]. destruct c; auto. now destruct (N msg_id payload).
  - intros S. destruct m as [c|h|mm]; cbn [frame_says] in S.
    + assert (N : forall id p, c <> Extended id p) by (intros id p ->; destruct S).
      assert (W : core_wire c f) by (destruct c; auto; destruct S).
      apply core_decode_other in W; auto. rewrite W. cbn [res_bind]. destruct c; auto. destruct S.
    + destruct S as (d & -> & C & D & S). rewrite (proj2 (core_decode_ext _ 0 (encode (VDict d)))) by (split; [lia|reflexivity]).
      cbn [res_bind]. change (0 =? 0) with true. cbv iota. rewrite (proj2 (eh_decode_iff _ h)); eauto 10.
    + destruct S as (d & rest & -> & C & D & S). rewrite (proj2 (core_decode_ext _ 42 (encode (VDict d) ++ rest))) by (split; [lia|reflexivity]).
      cbn [res_bind]. change (42 =? 0) with false. cbv iota. change (reg_for_message_id local_reg 42) with (Some Metadata). cbv iota.
      rewrite (proj2 (mm_decode_iff _ mm)); eauto 10.
Qed.

(** ** Sending *)
Lemma dec_length n : n < 2 ^ 32 -> (length (dec n) <= 33)%nat.
Proof.
  intros H. assert (G : forall f m acc, (length (dec_go f m acc) <= f + length acc)%nat).
  { induction f; intros; cbn [dec_go]; [lia|]. destruct (m <? 10); cbn [length]; [lia|]. etransitivity; [apply IHf|]. cbn; lia. }
  unfold dec. etransitivity; [apply G|]. cbn [length].
  assert (E : N.size_nat n = N.to_nat (N.size n)) by (destruct n; cbn; [auto|]; induction p; cbn; lia).
  destruct (N.eq_dec n 0) as [->|NZ]; [cbn; lia|]. rewrite E, N.size_log2 by auto.
  pose proof (proj1 (N.log2_lt_pow2 n 32 ltac:(lia)) H). lia.
Qed.

Lemma frame_encode_ok f : blen f <= 65535 -> exists b, frame_encode f = Some b /\ framed f b.
Proof.
  intros H. unfold frame_encode, MAX_PEER_MSG_LEN. destruct (N.ltb_spec 65535 (blen f)); [lia|]. eexists. split; [reflexivity|].
  exists (be_bytes 4 (blen f)). split; auto. split; [apply be_bytes_length|]. split; auto. apply be_be_bytes.
  change (256 ^ N.of_nat 4) with 4294967296. lia.
Qed.

Lemma mm_small p : p < 2 ^ 32 ->
  (exists s, mm_encode (MRequest p) = Ret s /\ (length s <= 100)%nat) /\
  (exists s, mm_encode (MReject p) = Ret s /\ (length s <= 100)%nat).
Proof.
  intros H. pose proof (dec_length p H) as L.
  assert (E : dec_Z (Z.of_N p) = dec p) by (destruct p; reflexivity).
  assert (E1 : encode (mm_header (MRequest p)) = bs "d8:msg_typei0e5:piecei" ++ dec_Z (Z.of_N p) ++ bs "ee") by (unfold mm_header, vnat; cbn [encode map fst snd concat]; rewrite ?app_nil_r, <- ?app_assoc; reflexivity).
  assert (E2 : encode (mm_header (MReject p)) = bs "d8:msg_typei2e5:piecei" ++ dec_Z (Z.of_N p) ++ bs "ee") by (unfold mm_header, vnat; cbn [encode map fst snd concat]; rewrite ?app_nil_r, <- ?app_assoc; reflexivity).
  rewrite E in E1, E2.
  split; unfold mm_encode; rewrite to_bencode_ok; try (repeat split; fail); try (cbn; lia); eexists; (split; [reflexivity|]);
    rewrite ?E1, ?E2, !app_length; change (length (bs "d8:msg_typei0e5:piecei")) with 22%nat;
    change (length (bs "d8:msg_typei2e5:piecei")) with 22%nat; change (length (bs "ee")) with 2%nat; cbn [length]; lia.
Qed.

Definition carries (remote : registry) (m : message) (b : bytes) : Prop :=
  exists f c, framed f b /\ reg_get_message_id remote Metadata = Some c /\ frame_says c f m.

Lemma send_ok remote c m : reg_get_message_id remote Metadata = Some c -> c < 256 ->
  (exists p, p < 2 ^ 32 /\ (m = Meta (MRequest p) \/ m = Meta (MReject p))) ->
  exists b, channel_send remote m = Ret (Ok b) /\ carries remote m b.
Proof.
  intros HC B (p & HP & HM).
  assert (G : forall mm, metadata_ok mm -> (exists s, mm_encode mm = Ret s /\ (length s <= 100)%nat) -> m = Meta mm ->
     exists b, channel_send remote m = Ret (Ok b) /\ carries remote m b).
  { intros mm W (s & E & L) ->. destruct (mm_roundtrip mm W) as (s' & E' & D). rewrite E in E'. injection E' as <-.
    unfold channel_send. cbn [msg_encode]. rewrite HC, E.
    destruct (frame_encode_ok (core_encode (Extended c s))) as (b & EF & F).
    { change (core_encode (Extended c s)) with (x14 :: n2b c :: s). unfold blen. cbn [length]. clear HP. lia. }
    rewrite EF. cbn [ok_or]. exists b. split; auto. exists (core_encode (Extended c s)), c. split; auto. split; auto.
    apply mm_decode_iff in D as (d & rest & ES & C & DP & S). exists d, rest. split; auto. rewrite <- ES. reflexivity. }
  destruct (mm_small p HP) as [S1 S2].
  destruct HM as [HM|HM]; (eapply G; [| |exact HM]; auto).
Qed.

Lemma havenone_ok remote : exists b f, channel_send remote (Core HaveNone) = Ret (Ok b) /\ framed f b /\ core_wire HaveNone f.
Proof.
  unfold channel_send. cbn [msg_encode core_encode]. destruct (frame_encode_ok [x0f]) as (b & E & F); [cbv; discriminate|].
  rewrite E. exists b, [x0f]. split; [reflexivity|]. split; auto. exists []. split; [constructor|reflexivity].
Qed.

Definition our_shake (i : ip) : ext_handshake :=
  mkEH None (Some [(bs "ut_metadata", 42)]) (Some (bs "demagnetize 0.7.0")) None (Some i).

Lemma ascii_text s : forallb (fun b => b2n b <? 128) s = true -> exists cs, Forall scalar cs /\ s = utf8 cs.
Proof.
  intros H. exists (map b2n s). induction s as [|b s IH]; [split; [constructor|reflexivity]|].
  cbn [forallb] in H. apply andb_true_iff in H as [H1 H2]. apply N.ltb_lt in H1. destruct (IH H2) as [I1 I2]. split.
  - constructor; auto. unfold scalar. lia.
  - cbn [map]. unfold utf8 in *. cbn [flat_map map concat] in *. 
    rewrite I2 at 1. unfold utf8_char. destruct (N.ltb_spec (b2n b) 128); [|lia]. rewrite n2b_b2n. reflexivity.
Qed.

Lemma our_shake_ok i : wf_ip i -> ext_handshake_ok (our_shake i).
Proof.
  intros W. unfold ext_handshake_ok, our_shake. cbn [eh_m eh_v eh_size eh_yourip]. conjs.
  - intros m [= <-]. split; [exact I|]. constructor; [|constructor]. split; [reflexivity|]. apply ascii_text. reflexivity.
  - intros s [= <-]. apply ascii_text. reflexivity.
  - discriminate.
  - intros j [= <-]. exact W.
Qed.

Lemma octets_length i : length (octets i) = match i with V4 _ => 4%nat | V6 _ => 16%nat end.
Proof. destruct i; apply be_bytes_length. Qed.

Lemma shake_send i : wf_ip i -> exists b f, channel_send reg_new (ExtHandshake (our_shake i)) = Ret (Ok b) /\
  framed f b /\ forall id, frame_says id f (ExtHandshake (our_shake i)).
Proof.
  intros W. destruct (eh_roundtrip _ (our_shake_ok i W)) as (s & E & D).
  unfold channel_send. cbn [msg_encode]. rewrite E.
  assert (L : (length s <= 200)%nat).
  { unfold eh_encode, to_bencode in E. destruct (_ && _); [|discriminate].
    assert (ES : encode (eh_value (our_shake i)) = bs "d1:md11:ut_metadatai42ee1:v17:demagnetize 0.7.06:yourip" ++ encode_bytes (octets i) ++ bs "e").
    { unfold eh_value, our_shake, opt_pair. cbn [eh_e eh_m eh_v eh_size eh_yourip option_map app]. cbn [encode map fst snd concat].
      rewrite ?app_nil_r, <- ?app_assoc. reflexivity. }
    assert (s = encode (eh_value (our_shake i))) by congruence. subst s. rewrite ES, !app_length.
    change (length (bs "d1:md11:ut_metadatai42ee1:v17:demagnetize 0.7.06:yourip")) with 55%nat.
    unfold encode_bytes. rewrite !app_length, octets_length. unfold blen. rewrite octets_length. destruct i; cbn; lia. }
  destruct (frame_encode_ok (core_encode (Extended 0 s))) as (b & EF & F).
  { change (core_encode (Extended 0 s)) with (x14 :: x00 :: s). unfold blen. cbn [length]. lia. }
  rewrite EF. exists b, (core_encode (Extended 0 s)). split; [reflexivity|]. split; auto. intros id.
  apply eh_decode_iff in D as (d & -> & C & DP & S). exists d. auto.
Qed.

(** ** Registries from extended handshakes *)
Lemma shake_registry id f h : frame_says id f (ExtHandshake h) ->
  (forall n, eh_size h = Some n -> n < 2 ^ 32) /\
  match eh_registry h with
  | Ok r => registered r /\ forall c, reg_get_message_id r Metadata = Some c <-> offers h c
  | Err _ => offers h 0
  end.
Proof.
  intros (d & _ & C & _ & (_ & HM & _ & HS & _)). split.
  - intros n E. rewrite E in HS. unfold field in HS. destruct (lookup _ d); [|destruct HS]. apply HS.
  - unfold eh_registry, offers. destruct (eh_m h) as [m|].
    + unfold field in HM. destruct (lookup (bs "m") d) as [v|] eqn:EL; [|destruct HM].
      destruct HM as (d' & -> & F2).
      assert (C' : canonical (VDict d')).
      { destruct C as [_ C]. clear -C EL. revert C EL. induction d as [|[k x] d IH]; cbn [lookup]; [discriminate|].
        cbn [fold_right snd]. intros [C1 C2]. destruct (bytes_eqb (bs "m") k); [intros [= ->]; exact C1|auto]. }
      assert (EK : map fst m = map fst d').
      { clear -F2. induction F2 as [|x y l l' (E & _) _ IH]; cbn [map]; congruence. }
      assert (HB : Forall (fun kc : bytes * N => snd kc < 256) m).
      { clear -F2. induction F2 as [|x y l l' (_ & _ & H) _ IH]; constructor; auto. apply H. }
      assert (ND : NoDup (map fst m)) by (rewrite EK; apply ascending_nodup; apply C').
      pose proof (from_m_spec m HB ND) as S. destruct (reg_from_m m) as [r|].
      * destruct S as (R & _ & G). split; auto. intros c. rewrite G. split; [eauto|]. intros (m' & [= <-] & HI). exact HI.
      * destruct S as ([] & HI). eauto.
    + split; [constructor|]. intros c. split; [discriminate|]. intros (m & ? & _). discriminate.
Qed.

Lemma offers_fun id f h c c' : frame_says id f (ExtHandshake h) -> offers h c -> offers h c' -> c = c'.
Proof.
  intros (d & _ & C & _ & (_ & HM & _)) (m & E & H1) (m' & E' & H2).
  assert (m' = m) by congruence. subst m'. rewrite E in HM. unfold field in HM. destruct (lookup (bs "m") d) as [v|] eqn:EL; [|destruct HM].
  destruct HM as (d' & -> & F2).
  assert (C' : canonical (VDict d')).
  { destruct C as [_ C]. clear -C EL. revert C EL. induction d as [|[k x] d IH]; cbn [lookup]; [discriminate|].
    cbn [fold_right snd]. intros [C1 C2]. destruct (bytes_eqb (bs "m") k); [intros [= ->]; exact C1|auto]. }
  assert (EK : map fst m = map fst d').
  { clear -F2. induction F2 as [|x y l l' (E & _) _ IH]; cbn [map]; congruence. }
  assert (ND : NoDup (map fst m)) by (rewrite EK; apply ascending_nodup; apply C').
  clear -ND H1 H2. induction m as [|[k v] m IH]; [destruct H1|]. cbn [map fst] in ND. inversion ND as [|? ? NI ND']; subst.
  destruct H1 as [H1|H1], H2 as [H2|H2]; try congruence; auto.
  - exfalso. apply NI. inversion H1; subst. exact (in_map fst _ _ H2).
  - exfalso. apply NI. inversion H2; subst. exact (in_map fst _ _ H1).
Qed.

(** ** Connecting *)
Lemma hello_wire ih pid0 ext s : handshake_wire (mkHS ext ih pid0) s ->
  exists reserved, hello ih reserved s /\ be reserved = ext /\ length reserved = 8%nat.
Proof. intros (r & E & L & B & L1 & L2). cbn [hs_hash hs_pid hs_ext] in *. exists r. split; [exists pid0; auto|auto]. Qed.

Lemma hello_decode ih reserved s : hello ih reserved s ->
  length s = 68%nat /\ exists pid, handshake_decode s = Ok (mkHS (be reserved) ih pid).
Proof.
  intros (pid & -> & L1 & L2 & L3). split.
  - cbn [length]. rewrite !app_length, L1, L2, L3. reflexivity.
  - exists pid. apply handshake_decode_iff. exists reserved. auto.
Qed.

Lemma hello_fun ih r1 r2 s1 s2 t1 t2 : hello ih r1 s1 -> hello ih r2 s2 -> s1 ++ t1 = s2 ++ t2 -> s1 = s2 /\ r1 = r2 /\ t1 = t2.
Proof.
  intros H1 H2 E. pose proof (hello_decode _ _ _ H1) as [L1 _]. pose proof (hello_decode _ _ _ H2) as [L2 _].
  apply app_len_inj in E as [E ->]; [|congruence]. subst s2. split; auto. split; auto.
  destruct H1 as (p1 & -> & A1 & B1 & C1), H2 as (p2 & E & A2 & B2 & C2).
  assert (EQ : r1 ++ ih ++ p1 = r2 ++ ih ++ p2).
  { clear -E. change (n2b 19 :: bs "BitTorrent protocol" ++ ?x) with ((n2b 19 :: bs "BitTorrent protocol") ++ x) in E.
    apply (app_inv_head (n2b 19 :: bs "BitTorrent protocol")). exact E. }
  apply app_len_inj in EQ as [-> _]; congruence.
Qed.

Lemma our_ext : ext_from SUPPORTED_EXTENSIONS = 1048580.
Proof. reflexivity. Qed.

Lemma nego reserved e : length reserved = 8%nat -> In e SUPPORTED_EXTENSIONS ->
  (ext_has (ext_and (ext_from SUPPORTED_EXTENSIONS) (be reserved)) e = true <-> advertises reserved e).
Proof.
  intros L HI. destruct negotiation as (N1 & N2 & N3 & _). rewrite advertises_bit by auto.
  rewrite ext_has_bit. unfold ext_and. rewrite N.land_spec, andb_true_iff, <- ext_has_bit. split; [tauto|].
  intros H. split; auto. now apply N2.
Qed.

Record good_conn (ih : bytes) (reads : list bytes) (c : conn) : Prop := {
  gc_local : cn_local c = local_reg;
  gc_st : cn_st c = Head;
  gc_reg : registered (cn_remote c);
  gc_peer : exists h0 reserved w0 f0 shake code,
    concat reads = h0 ++ w0 ++ total Head (cn_buf c) (cn_reads c) /\
    hello ih reserved h0 /\ advertises reserved Bep10 /\ framed f0 w0 /\
    frame_says 42 f0 (ExtHandshake shake) /\ cn_size c = eh_size shake /\ offers shake code /\
    reg_get_message_id (cn_remote c) Metadata = Some code /\ 0 < code < 256 }.

(** The bytes sent while connecting, and what they tell about the peer. *)
Record good_out (ih pid : bytes) (i : ip) (reads : list bytes) (out : list bytes) : Prop := {
  go_sent : exists h0 rest, out = h0 :: rest /\ handshake_wire (mkHS 1048580 ih pid) h0 /\
    (rest = [] \/
     exists ph reserved more w f tail,
       concat reads = ph ++ more /\ hello ih reserved ph /\ advertises reserved Bep10 /\
       rest = w :: tail /\ framed f w /\ frame_says 42 f (ExtHandshake (our_shake i)) /\
       (tail = [] \/ exists w2 f2, tail = [w2] /\ framed f2 w2 /\ core_wire HaveNone f2 /\ advertises reserved Fast)) }.

Definition full_out (ih : bytes) (reads out : list bytes) : Prop :=
  exists h0 w tail, out = h0 :: w :: tail /\
    forall ph reserved more, concat reads = ph ++ more -> hello ih reserved ph -> advertises reserved Fast -> tail <> [].

Lemma connect_spec ih pid i reads e : length ih = 20%nat -> length pid = 20%nat -> wf_ip i ->
  good_out ih pid i reads (fst (connect ih pid i reads e)) /\
  match snd (connect ih pid i reads e) with
  | SPanicked => False
  | SDone (Ok c) => good_conn ih reads c /\ full_out ih reads (fst (connect ih pid i reads e))
  | _ => True
  end.
Proof.
  intros L1 L2 W. unfold connect. set (h0 := handshake_bytes _).
  assert (HW : handshake_wire (mkHS 1048580 ih pid) h0) by (apply handshake_bytes_wire; cbn [hs_ext hs_hash hs_pid]; auto; reflexivity).
  assert (G0 : good_out ih pid i reads [h0]) by (constructor; exists h0, []; auto).
  pose proof (read_exact_spec e reads 68 []) as R. destruct (read_exact 68 [] reads e) as [buf r1| |]; [|split; [exact G0|exact I]..].
  destruct R as (x & EB & LX & EC). cbn [app] in EB. subst x.
  destruct (handshake_decode buf) as [h|] eqn:EH; [|split; [exact G0|exact I]]. apply handshake_decode_iff in EH.
  destruct (bytes_eqb_spec (hs_hash h) ih) as [EQ|]; cbn [negb]; [|split; [exact G0|exact I]].
  destruct h as [ext hash hpid]. cbn [hs_hash hs_ext] in *. subst hash.
  destruct (hello_wire _ _ _ _ EH) as (reserved & HH & EX & LR). subst ext.
  destruct (ext_has _ Bep10) eqn:EB; cbn [negb]; [|split; [exact G0|exact I]].
  apply nego in EB; [|auto|left; reflexivity]. rewrite local_registry_eq.
  change (mkEH None (Some (reg_to_m local_reg)) (Some CLIENT) None (Some i)) with (our_shake i).
  destruct (shake_send i W) as (w & f & ES & FW & FS). rewrite ES.
  assert (G1 : good_out ih pid i reads [h0; w]).
  { constructor. exists h0, [w]. split; auto. split; auto. right. exists buf, reserved, (concat r1), w, f, [].
    repeat (split; [solve [auto]|]). auto. }
  pose proof (framed_next_spec e r1 Head [] I) as FN. destruct (framed_next Head [] r1 e) as [[[q st] buf'] r2].
  destruct q as [f0| | |]; [|split; [exact G1|exact I]..].
  destruct FN as (-> & hd & ET & LH & BH & MH).
  destruct (recv_event local_reg f0) as [m|] eqn:ER; [|split; [exact G1|exact I]]. apply recv_says in ER.
  destruct m as [m|their|mm]; [split; [exact G1|exact I]| |split; [exact G1|exact I]].
  destruct (shake_registry _ _ _ ER) as [HS HR]. destruct (eh_registry their) as [remote|]; [|split; [exact G1|exact I]].
  destruct HR as [RR RO].
  unfold reg_contains. destruct (reg_get_message_id remote Metadata) as [code|] eqn:EG; cbn [negb]; [|split; [exact G1|exact I]].
  assert (GC : good_conn ih reads (mkConn local_reg remote (ext_and (ext_from SUPPORTED_EXTENSIONS) (be reserved)) (eh_size their) Head buf' r2)).
  { constructor; cbn [cn_local cn_st cn_remote cn_size cn_buf cn_reads]; auto.
    exists buf, reserved, (hd ++ f0), f0, their, code. split.
    { rewrite EC. f_equal. unfold total in ET. cbn [pending app] in ET. rewrite ET, <- app_assoc. reflexivity. }
    split; auto. split; auto. split; [exists hd; auto|]. split; auto. split; auto. split; [now apply RO|]. split; auto.
    apply registered_inverse in RR as [_ RB]. now apply RB in EG. }
  destruct (ext_has _ Fast) eqn:EF.
  - apply nego in EF; [|auto|right; left; reflexivity]. destruct (havenone_ok remote) as (b2 & f2 & E2 & F2 & W2). rewrite E2. cbn [fst snd app].
    split; [|split; [exact GC|]].
    2:{ exists h0, w, [b2]. split; [reflexivity|]. discriminate. }
    constructor. exists h0, [w; b2]. split; auto. split; auto. right. exists buf, reserved, (concat r1), w, f, [b2].
    repeat (split; [solve [auto]|]). right. exists b2, f2. auto.
  - split; [exact G1|split; [exact GC|]]. exists h0, w, []. split; [reflexivity|]. intros ph res more E1 H1 A _. rewrite EC in E1.
    destruct (hello_fun _ _ _ _ _ _ _ HH H1 E1) as (_ & <- & _). apply nego in A; [|auto|right; left; reflexivity]. congruence.
Qed.

Lemma frame_first e r f w more : framed f w -> concat r = w ++ more ->
  exists st b r', framed_next Head [] r e = (Frame f, st, b, r') /\ st = Head /\ total Head b r' = more.
Proof.
  intros (hd & -> & L & B & M) E. pose proof (framed_next_spec e r Head [] I) as FN.
  assert (ET : total Head [] r = hd ++ f ++ more) by (unfold total; cbn [pending app]; rewrite E, <- app_assoc; reflexivity).
  destruct (framed_next Head [] r e) as [[[q st] b] r'].
  assert (D : (exists f', q = Frame f') \/ (forall f', q <> Frame f')) by (destruct q; eauto; right; congruence).
  destruct D as [(f' & ->)|N].
  - destruct FN as (-> & hd' & ET' & L' & B' & M'). rewrite ET in ET'. apply app_len_inj in ET' as [-> ET']; [|congruence].
    apply app_len_inj in ET' as [-> ET']; [|unfold blen in *; lia]. exists Head, b, r'. auto.
  - exfalso. assert (FN' : exists rem, frames (total Head [] r) [] rem /\ q = verdict rem e) by (destruct q; auto; now destruct (N f0)).
    destruct FN' as (rem & F & _). rewrite ET in F. inversion F as [? U|h' t' L' B' EQ|]; subst.
    + eauto using unfinished_not_frame.
    + apply app_len_inj in EQ as [-> EQ]; [|congruence]. lia.
Qed.

Lemma connect_honest ih pid i reads e h0 reserved w0 f0 shake c more :
  length pid = 20%nat -> wf_ip i -> concat reads = h0 ++ w0 ++ more ->
  hello ih reserved h0 -> advertises reserved Bep10 -> framed f0 w0 -> frame_says 42 f0 (ExtHandshake shake) ->
  offers shake c -> 0 < c ->
  exists out cn, connect ih pid i reads e = (out, SDone (Ok cn)) /\ cn_size cn = eh_size shake /\
    total Head (cn_buf cn) (cn_reads cn) = more.
Proof.
  intros LP W EC HH HB FW FS HO HC.
  unfold connect. set (hs0 := handshake_bytes _).
  destruct (hello_decode _ _ _ HH) as (L68 & hpid & HD).
  pose proof (read_exact_spec e reads 68 []) as R.
  destruct (read_exact 68 [] reads e) as [buf r1| |];
    [|destruct R as [R _]; rewrite EC, app_length in R; lia..].
  destruct R as (x & EB & LX & ER). cbn [app] in EB. subst x. rewrite EC in ER.
  apply app_len_inj in ER as [EB ER]; [|congruence]. subst buf. rewrite HD. cbn [hs_hash hs_ext].
  rewrite bytes_eqb_refl. cbn [negb].
  assert (LR : length reserved = 8%nat) by (destruct HH as (? & _ & ? & _); auto).
  rewrite (proj2 (nego reserved Bep10 LR ltac:(left; reflexivity)) HB). cbn [negb]. rewrite local_registry_eq.
  change (mkEH None (Some (reg_to_m local_reg)) (Some CLIENT) None (Some i)) with (our_shake i).
  destruct (shake_send i W) as (w & f & ES & _). rewrite ES.
  destruct (frame_first e r1 f0 w0 more FW (eq_sym ER)) as (st & b & r' & EN & -> & ET). rewrite EN.
  rewrite (proj2 (recv_says f0 (ExtHandshake shake)) FS).
  destruct (shake_registry _ _ _ FS) as [_ HR]. destruct (eh_registry shake) as [remote|].
  - destruct HR as [RR RO]. unfold reg_contains. rewrite (proj2 (RO c) HO). cbn [negb].
    destruct (ext_has _ Fast); [destruct (havenone_ok remote) as (b2 & f2 & E2 & _); rewrite E2|]; eexists _, _; (split; [reflexivity|auto]).
  - exfalso. pose proof (offers_fun _ _ _ _ _ FS HO HR). lia.
Qed.

(** ** Fetching *)
Definition events (fs : list bytes) (r : frame_result) : list event :=
  map (recv_event local_reg) fs ++ match end_event r with Some x => [Err x] | None => [] end.
Definition stage_of (st : fetch) : stage torrent_info :=
  match st with Waiting _ _ _ => SWaiting | Finished x => SDone x | Crashed => SPanicked end.
Fixpoint sent_msgs (tr : list wire) : list message :=
  match tr with [] => [] | Sent m :: r => m :: sent_msgs r | Recv _ :: r => sent_msgs r end.

Lemma sent_msgs_app a b : sent_msgs (a ++ b) = sent_msgs a ++ sent_msgs b.
Proof. induction a as [|[|] a IH]; cbn; congruence. Qed.
Lemma sent_msgs_map ms : sent_msgs (map Sent ms) = ms.
Proof. induction ms; cbn; congruence. Qed.

Lemma send_all_ok remote ms : Forall (fun m => exists b, channel_send remote m = Ret (Ok b) /\ carries remote m b) ms ->
  exists out, send_all remote ms = (out, Ret (Ok tt)) /\ Forall2 (carries remote) ms out.
Proof.
  induction 1 as [|m ms (b & E & C) _ (out & E2 & F)]; cbn [send_all]; [eauto|]. rewrite E, E2. eauto.
Qed.

Lemma fetch_loop_run c r : cn_local c = local_reg -> forall fs st,
  Forall (fun m => exists b, channel_send (cn_remote c) m = Ret (Ok b) /\ carries (cn_remote c) m b)
    (sent_msgs (snd (fetch_run st (events fs r)))) ->
  exists out, fetch_loop c st fs r = (out, stage_of (fst (fetch_run st (events fs r)))) /\
    Forall2 (carries (cn_remote c)) (sent_msgs (snd (fetch_run st (events fs r)))) out.
Proof.
  intros EL. unfold events. induction fs as [|f fs IH]; intros st HF.
  - cbn [map app] in *. destruct st as [sz b i|x|]; cbn [fetch_loop] in *.
    + destruct (end_event r) as [x|]; cbn [fetch_run] in *; cbn; eauto.
    + destruct (end_event r); cbn; eauto.
    + destruct (end_event r); cbn; eauto.
  - cbn [map app] in *. destruct st as [sz b i|x|]; cbn [fetch_loop fetch_run] in *; [|cbn; eauto..].
    rewrite EL. destruct (fetch_step (Waiting sz b i) (recv_event local_reg f)) as [st1 ms].
    specialize (IH st1). destruct (fetch_run st1 _) as [st2 tr]. cbn [fst snd sent_msgs] in *.
    rewrite sent_msgs_app, sent_msgs_map in *. apply Forall_app in HF as [H1 H2].
    destruct (send_all_ok _ _ H1) as (o1 & E1 & F1). rewrite E1. destruct (IH H2) as (o2 & E2 & F2). rewrite E2.
    exists (o1 ++ o2). split; auto. now apply Forall2_app.
Qed.

Lemma run_recv_in evs : forall st st' tr ev, fetch_run st evs = (st', tr) -> In (Recv ev) tr -> In ev evs.
Proof.
  induction evs as [|x evs IH]; intros st st' tr ev; destruct st; cbn [fetch_run]; try (intros [= <- <-] []).
  destruct (fetch_step _ x) as [st1 out]. destruct (fetch_run st1 evs) as [st2 tr2] eqn:E. intros [= <- <-] H. cbn [In] in H.
  destruct H as [H|H]; [left; congruence|]. apply in_app_iff in H as [H|H].
  - apply in_map_iff in H as (m & [=] & _).
  - right. eauto.
Qed.

Lemma sent_split tr m : In m (sent_msgs tr) -> exists p q, tr = p ++ Sent m :: q.
Proof.
  induction tr as [|[ev|m'] tr IH]; cbn [sent_msgs]; [intros []| |].
  - intros H. destruct (IH H) as (p & q & ->). exists (Recv ev :: p), q. reflexivity.
  - intros [->|H]; [exists [], tr; reflexivity|]. destruct (IH H) as (p & q & ->). exists (Sent m' :: p), q. reflexivity.
Qed.

Lemma request_small p f : recv_event local_reg f = Ok (Meta (MRequest p)) -> p < 2 ^ 32.
Proof.
  intros H. apply recv_says in H as (d & rest & _ & _ & _ & (ty & pc & tot & _ & HP & _ & (_ & -> & _))).
  unfold field in HP. destruct (lookup _ d); [|destruct HP]. apply HP.
Qed.

Lemma fetch_msgs ih size fs r : (forall n, size = Some n -> n < 2 ^ 32) ->
  Forall (fun m => exists p, p < 2 ^ 32 /\ (m = Meta (MRequest p) \/ m = Meta (MReject p)))
    (sent_msgs (snd (get_metadata_info ih size (events fs r)))).
Proof.
  intros HS. apply Forall_forall. intros m HI.
  destruct (get_metadata_info ih size (events fs r)) as [st tr] eqn:E. cbn [snd] in HI.
  destruct size as [n|]; [|rewrite fetch_no_size in E; injection E as <- <-; destruct HI].
  destruct (fetch_sends _ _ _ _ _ E) as [HA _]. destruct (sent_split _ _ HI) as (p & q & ET).
  specialize (HA p m q ET). specialize (HS n eq_refl). destruct HA as [(i & -> & HB & _)|(x & earlier & -> & ->)].
  - exists i. split; [|auto]. change (2 ^ 32) with 4294967296 in *. lia.
  - exists x. split; [|auto]. unfold get_metadata_info in E. destruct (fetch_start ih (Some n)) as [st0 o0].
    destruct (fetch_run st0 (events fs r)) as [st1 tr1] eqn:ER. injection E as <- <-.
    assert (HR : In (Recv (Ok (Meta (MRequest x)))) (map Sent o0 ++ tr1)) by (rewrite ET; apply in_app_iff; left; apply in_app_iff; right; left; reflexivity).
    apply in_app_iff in HR as [HR|HR]; [apply in_map_iff in HR as (y & [=] & _)|].
    apply (run_recv_in _ _ _ _ _ ER) in HR. unfold events in HR. apply in_app_iff in HR as [HR|HR].
    + apply in_map_iff in HR as (f & HR & _). eauto using request_small.
    + destruct (end_event r); [destruct HR as [HR|[]]; discriminate|destruct HR].
Qed.

Lemma fetch_from_run ih c e : cn_local c = local_reg -> cn_st c = Head ->
  (forall n, cn_size c = Some n -> n < 2 ^ 32) ->
  (exists code, reg_get_message_id (cn_remote c) Metadata = Some code /\ code < 256) ->
  exists fs rem out,
    frames (total Head (cn_buf c) (cn_reads c)) fs rem /\
    fetch_from ih c e = (out, stage_of (fst (get_metadata_info ih (cn_size c) (events fs (verdict rem e))))) /\
    Forall2 (carries (cn_remote c)) (sent_msgs (snd (get_metadata_info ih (cn_size c) (events fs (verdict rem e))))) out.
Proof.
  intros EL ES HS (code & EC & HC). unfold fetch_from. rewrite ES.
  set (n := S _). assert (Hn : (length (total Head (cn_buf c) (cn_reads c)) < n)%nat) by (unfold n, total; cbn [pending]; lia).
  destruct (framed_all_spec e n Head (cn_buf c) (cn_reads c) I Hn) as (rem & F & V).
  destruct (framed_all n Head (cn_buf c) (cn_reads c) e) as [fs r]. cbn [fst snd] in *. subst r.
  pose proof (fetch_msgs ih (cn_size c) fs (verdict rem e) HS) as HM.
  exists fs, rem. unfold get_metadata_info in *. destruct (fetch_start ih (cn_size c)) as [st0 o0].
  pose proof (fetch_loop_run c (verdict rem e) EL fs st0) as HL.
  destruct (fetch_run st0 (events fs (verdict rem e))) as [st1 tr1]. cbn [fst snd] in *.
  rewrite sent_msgs_app, sent_msgs_map in *.
  assert (HM' : Forall (fun m => exists b, channel_send (cn_remote c) m = Ret (Ok b) /\ carries (cn_remote c) m b) (o0 ++ sent_msgs tr1)).
  { eapply Forall_impl; [|exact HM]. intros m Hm. eapply send_ok; eauto. }
  apply Forall_app in HM' as [H1 H2]. destruct (send_all_ok _ _ H1) as (out1 & E1 & F1). rewrite E1.
  destruct (HL H2) as (out2 & E2 & F2). rewrite E2. exists (out1 ++ out2). split; auto. split; auto. now apply Forall2_app.
Qed.

(** ** The whole exchange *)
Lemma session_spec ih pid i reads e out s :
  length ih = 20%nat -> length pid = 20%nat -> wf_ip i -> session ih pid i reads e = (out, s) ->
  s <> SPanicked /\
  (forall info, s = SDone (Ok info) ->
     sha1 (ti_data info) = ih /\ ti_hash info = ih /\ bencoded_dict (ti_data info) /\
     exists h0 reserved rest, concat reads = h0 ++ rest /\ hello ih reserved h0 /\ advertises reserved Bep10) /\
  (exists out1 out2, out = out1 ++ out2 /\ good_out ih pid i reads out1 /\
     (out2 = [] \/ exists h0 reserved w0 f0 shake code rest ms,
        full_out ih reads out1 /\
        concat reads = h0 ++ w0 ++ rest /\ hello ih reserved h0 /\ advertises reserved Bep10 /\
        framed f0 w0 /\ frame_says 42 f0 (ExtHandshake shake) /\ offers shake code /\ 0 < code < 256 /\
        Forall2 (fun m b => (exists p, m = Meta (MRequest p) \/ m = Meta (MReject p)) /\
                            exists f, framed f b /\ frame_says code f m) ms out2)).
Proof.
  intros L1 L2 W. unfold session. destruct (connect_spec ih pid i reads e L1 L2 W) as [GO GC].
  destruct (connect ih pid i reads e) as [o st]. cbn [fst snd] in *.
  assert (TRIV : exists out1 out2, o = out1 ++ out2 /\ good_out ih pid i reads out1 /\ out2 = []) by (exists o, []; rewrite app_nil_r; auto).
  destruct st as [[c|x]| |]; [|intros [= <- <-]..]; [| | |destruct GC].
  2,3: split; [discriminate|]; split; [discriminate|]; destruct TRIV as (o1 & o2 & E & G & N); exists o1, o2; auto.
  destruct GC as [GC FO]. destruct GC as [GL GS GR (h0 & reserved & w0 & f0 & shake & code & EC & HH & HB & FW & FS & HZ & HO & HG & HC)].
  destruct (shake_registry _ _ _ FS) as [HS _].
  destruct (fetch_from_run ih c e GL GS ltac:(rewrite HZ; exact HS) ltac:(exists code; split; [auto|lia])) as (fs & rem & out2 & FR & EF & F2).
  rewrite EF. pose proof (fetch_msgs ih (cn_size c) fs (verdict rem e) ltac:(rewrite HZ; exact HS)) as HM.
  destruct (get_metadata_info ih (cn_size c) (events fs (verdict rem e))) as [st1 tr1] eqn:EI. cbn [fst snd] in *.
  intros [= <- <-]. split; [|split].
  - destruct st1; cbn; try discriminate. now apply fetch_never_panics in EI.
  - intros info HI. assert (ES : st1 = Finished (Ok info)) by (destruct st1; cbn in HI; congruence). subst st1.
    apply fetch_authentic in EI as (A & B & C & D). split; auto. split; auto. split; auto. exists h0, reserved, (w0 ++ total Head (cn_buf c) (cn_reads c)). auto.
  - exists o, out2. split; auto. split; auto. right.
    exists h0, reserved, w0, f0, shake, code, (total Head (cn_buf c) (cn_reads c)), (sent_msgs tr1).
    repeat (split; [solve [auto]|]).
    clear -F2 HM HG. induction F2 as [|m b ms bs (f & c' & Ff & E & S) _ IH]; [constructor|].
    inversion HM as [|? ? (p & _ & HP) HM']; subst. constructor; auto. split; [eauto|]. exists f. split; auto. congruence.
Qed.

Lemma honest_app data i evs more : honest data i evs -> honest data i (evs ++ more).
Proof.
  induction 1; cbn [app].
  - now apply honest_done.
  - now apply honest_other.
  - now apply honest_piece.
Qed.

Lemma frames_framed fs ws : Forall2 framed fs ws -> forall t gs r, frames t gs r -> frames (concat ws ++ t) (fs ++ gs) r.
Proof.
  induction 1 as [|f w fs ws (h & -> & L & B & M) _ IH]; intros t gs r F; [exact F|]. cbn [concat app]. rewrite <- !app_assoc.
  apply fr_cons; auto.
Qed.

Lemma session_honest ih pid i data reads e :
  length pid = 20%nat -> wf_ip i -> bencoded_dict data -> sha1 data = ih -> blen data <= 20971520 ->
  honest_stream ih data (concat reads) ->
  snd (session ih pid i reads e) = SDone (Ok (mkTI ih data)).
Proof.
  intros LP W BD SH LB (h0 & reserved & w0 & f0 & shake & c & fs & ws & ms & rest & EC & HH & HB & FW & FS & HZ & HO & HC & F1 & F2 & HON).
  assert (L20 : length ih = 20%nat) by (destruct HH as (? & _ & _ & ? & _); auto).
  unfold session. destruct (connect_spec ih pid i reads e L20 LP W) as [_ GC].
  destruct (connect_honest ih pid i reads e _ _ _ _ _ _ _ LP W EC HH HB FW FS HO HC) as (out & cn & E & EZ & ET). rewrite E in *. cbn [fst snd] in GC.
  destruct GC as [[GL GS GR (h1 & reserved1 & w1 & f1 & shake1 & code & EC1 & HH1 & HB1 & FW1 & FS1 & HZ1 & HO1 & HG & HC1)] _].
  destruct (shake_registry _ _ _ FS1) as [HS _].
  destruct (fetch_from_run ih cn e GL GS ltac:(rewrite HZ1; exact HS) ltac:(exists code; split; [auto|lia])) as (fs' & rem & out2 & FR & EF & _).
  rewrite EF. cbn [snd]. rewrite ET in FR.
  destruct (all_frames_spec [rest] e) as (rem2 & FR2 & _). cbn [concat] in FR2. rewrite app_nil_r in FR2.
  pose proof (frames_framed _ _ F1 _ _ _ FR2) as FR3. destruct (frames_fun _ _ _ FR _ _ FR3) as [-> ->].
  rewrite EZ, HZ.
  assert (EV : events (fs ++ fst (all_frames [rest] e)) (verdict rem2 e) =
               map Ok ms ++ map (recv_event local_reg) (fst (all_frames [rest] e)) ++ match end_event (verdict rem2 e) with Some x => [Err x] | None => [] end).
  { unfold events. rewrite map_app, <- app_assoc. f_equal.
    clear -F2. induction F2 as [|f m fs ms S _ IH]; cbn [map]; [reflexivity|]. rewrite IH. f_equal. now apply recv_says. }
  rewrite EV. set (more := map (recv_event local_reg) _ ++ _).
  destruct (honest_suffices ih data (map Ok ms ++ more) BD SH LB (honest_app _ _ _ more HON)) as (tr & E2). rewrite E2. reflexivity.
Qed.

(** ** Encrypting or not *)
Lemma never_plain {C} override p limit (enc plain : timed (res peer_error C)) l t r :
  run_connect override p true limit enc plain = (l, t, r) -> ~ In false l.
Proof.
  unfold run_connect, get_crypto_mode, pref_mode. destruct override as [[]|], p; cbn [ok_or]; try destruct (timeout limit enc);
    intros E; injection E as <- <- <-; cbn; intuition discriminate.
Qed.

Lemma preference_honoured {C} override p requires limit (enc plain : timed (res peer_error C)) l t r :
  run_connect override p requires limit enc plain = (l, t, r) ->
  let always := override = Some Encrypt \/ (override = None /\ p = CPAlways) in
  let never := override = Some Plain \/ (override = None /\ p = CPNever) in
  let prefer := override = Some Prefer \/ (override = None /\ p = CPPrefer) in
  let if_required := override = None /\ p = CPIfRequired in
  (always -> l = [true]) /\
  (never -> l = if requires then [] else [false]) /\
  (if_required -> l = if requires then [true] else [false]) /\
  (prefer -> l = [true] \/
     (l = [true; false] /\ requires = false /\ exists t0, enc = Some (t0, Err ECryptoHandshake) /\ t0 <= limit)) /\
  (prefer -> requires = false -> forall t0, enc = Some (t0, Err ECryptoHandshake) -> t0 <= limit -> l = [true; false]) /\
  t <= N.of_nat (length l) * limit.
Proof.
  assert (T : forall A (f : timed A), match timeout limit f with
     | (t0, Some a) => f = Some (t0, a) /\ t0 <= limit | (t0, None) => t0 = limit /\ forall t1 a, f = Some (t1, a) -> limit < t1 end).
  { intros A f. unfold timeout. destruct f as [[t0 a]|]; [|split; [auto|discriminate]].
    destruct (N.leb_spec t0 limit); auto. split; auto. intros t1 b H1. inversion H1; subst; auto. }
  pose proof (T _ enc) as TE. pose proof (T _ plain) as TP.
  assert (TT : forall A (f : timed A), fst (timeout limit f) <= limit).
  { intros A f. specialize (T _ f). destruct (timeout limit f) as [t0 [a|]]; cbn; lia. }
  pose proof (TT _ enc) as T1. pose proof (TT _ plain) as T2. clear T TT.
  intros E. cbv zeta.
  assert (M : match get_crypto_mode override p requires with
    | Err _ => l = [] /\ t = 0
    | Ok Encrypt => l = [true] /\ t = fst (timeout limit enc)
    | Ok Plain => l = [false] /\ t = fst (timeout limit plain)
    | Ok Prefer =>
        (l = [true; false] /\ t = fst (timeout limit enc) + fst (timeout limit plain) /\ snd (timeout limit enc) = Some (Err ECryptoHandshake)) \/
        (l = [true] /\ t = fst (timeout limit enc) /\ snd (timeout limit enc) <> Some (Err ECryptoHandshake))
    end).
  { unfold run_connect in E. destruct (get_crypto_mode override p requires) as [[]|].
    - destruct (timeout limit enc). injection E as <- <- <-. auto.
    - destruct (timeout limit enc) as [t0 r0], (timeout limit plain) as [t1 r1]. cbn [fst snd].
      destruct r0 as [[c|[]]|]; injection E as <- <- <-; try (left; auto; fail); right; (split; [auto|]; split; [auto|discriminate]).
    - destruct (timeout limit plain). injection E as <- <- <-. auto.
    - injection E as <- <- <-. auto. }
  clear E. destruct (timeout limit enc) as [t1 r1], (timeout limit plain) as [t2 r2]. cbn [fst snd] in *.
  unfold get_crypto_mode, pref_mode in M.
  assert (NE : forall A : Prop, r1 <> Some (Err ECryptoHandshake) -> forall t0, enc = Some (t0, Err ECryptoHandshake) -> t0 <= limit -> A).
  { intros A N t0 -> LE. exfalso. destruct r1 as [a|]; [destruct TE as [TE _]; congruence|]. destruct TE as [_ TE]. specialize (TE _ _ eq_refl). lia. }
  assert (PR : forall P, snd (timeout limit enc) = r1 \/ True -> r1 = Some (Err ECryptoHandshake) ->
     P \/ [true; false] = [true; false] /\ false = false /\ exists t0, enc = Some (t0, Err ECryptoHandshake) /\ t0 <= limit).
  { intros P _ ->. right. split; auto. split; auto. destruct TE. eauto. }
  destruct override as [[]|], requires; try destruct p; cbn [ok_or] in M;
    try (destruct M as [(-> & -> & X)|(-> & -> & X)]); try destruct M as [-> ->];
    repeat match goal with |- _ /\ _ => split end; cbn [length]; try lia;
    repeat match goal with
    | |- _ \/ _ -> _ => intros [?|[? ?]]
    | |- _ /\ _ -> _ => intros [? ?]
    | |- _ = _ -> _ => intros ?
    end; try discriminate; auto; try (apply NE; auto; fail).
Qed.

Lemma frame_encode_framed m b : frame_encode m = Some b <-> framed m b.
Proof.
  rewrite frame_encode_spec. unfold framed. split.
  - intros [H (h & E & L & B)]. eauto 10.
  - intros (h & E & L & B & M). eauto 10.
Qed.

Lemma session_authentic ih pid i reads e out s :
  length ih = 20%nat -> length pid = 20%nat -> wf_ip i -> session ih pid i reads e = (out, s) ->
  s <> SPanicked /\
  forall info, s = SDone (Ok info) ->
    sha1 (ti_data info) = ih /\ ti_hash info = ih /\ bencoded_dict (ti_data info) /\
    exists h0 reserved rest, concat reads = h0 ++ rest /\ hello ih reserved h0 /\ advertises reserved Bep10.
Proof. intros L1 L2 W E. destruct (session_spec _ _ _ _ _ _ _ L1 L2 W E) as (A & B & _). auto. Qed.

Lemma session_sends ih pid i reads e out s :
  length ih = 20%nat -> length pid = 20%nat -> wf_ip i -> session ih pid i reads e = (out, s) ->
  exists h0 rest, out = h0 :: rest /\ handshake_wire (mkHS 1048580 ih pid) h0 /\
    (rest = [] \/
     exists ph reserved more w f tail,
       concat reads = ph ++ more /\ hello ih reserved ph /\ advertises reserved Bep10 /\
       rest = w :: tail /\ framed f w /\ frame_says 42 f (ExtHandshake (our_shake i)) /\
       exists havenone msgs, tail = havenone ++ msgs /\
         (havenone = [] \/ exists w2 f2, havenone = [w2] /\ framed f2 w2 /\ core_wire HaveNone f2 /\ advertises reserved Fast) /\
         (msgs = [] \/
          (havenone <> [] <-> advertises reserved Fast) /\
          exists w0 f0 shake code rest0 ms,
            more = w0 ++ rest0 /\ framed f0 w0 /\ frame_says 42 f0 (ExtHandshake shake) /\ offers shake code /\ 0 < code < 256 /\
            Forall2 (fun m b => (exists p, m = Meta (MRequest p) \/ m = Meta (MReject p)) /\
                                exists f, framed f b /\ frame_says code f m) ms msgs)).
Proof.
  intros L1 L2 W E.
  destruct (session_spec ih pid i reads e out s L1 L2 W E) as (_ & _ & (o1 & o2 & EQ & [(h0 & rest & EO & HW & GO)] & M)).
  subst out o1. cbn [app]. exists h0, (rest ++ o2). split; auto. split; auto.
  destruct GO as [-> |(ph & reserved & more & w & f & tail & EC & HH & HB & -> & FW & FS & TL)].
  - destruct M as [-> |(? & ? & ? & ? & ? & ? & ? & ? & (? & ? & ? & FO & _) & _)]; [left; reflexivity|discriminate].
  - right. exists ph, reserved, more, w, f, (tail ++ o2). repeat (split; [solve [auto]|]). exists tail, o2. split; auto. split; auto.
    destruct M as [M|(h1 & r1 & w0 & f0 & shake & code & rest & ms & (x & y & z & FO1 & FO2) & EC1 & HH1 & HB1 & FW1 & FS1 & HO & HC & F2)]; [left; auto|].
    right. split.
    { split; [|intros FA ->; injection FO1 as _ _ <-; now apply (FO2 _ _ _ EC HH FA)]. destruct TL as [-> |(? & ? & -> & _ & _ & A)]; [congruence|auto]. }
    assert (more = w0 ++ rest).
    { rewrite EC in EC1. destruct (hello_fun _ _ _ _ _ _ _ HH HH1 EC1) as (_ & _ & ->). reflexivity. }
    exists w0, f0, shake, code, rest, ms. auto 10.
Qed.

(** ** A concrete peer *)
Definition ex_frame (f : bytes) : bytes := be_bytes 4 (blen f) ++ f.
Definition ex_shake : bytes := [x14; x00] ++ bs "d1:md11:ut_metadatai3ee13:metadata_sizei40ee".
Definition ex_piece : bytes := [x14; x2a] ++ bs "d8:msg_typei1e5:piecei0e10:total_sizei40ee" ++ ex_data.
Definition ex_hello : bytes :=
  n2b 19 :: bs "BitTorrent protocol" ++ be_bytes 8 1048580 ++ sha1 ex_data ++ bs "-TR0000-bbbbbbbbbbbb".
Definition ex_stream : list bytes :=
  [firstn 30 ex_hello; skipn 30 ex_hello ++ ex_frame ex_shake ++ [x00]; [x00; x00; x00] ++ ex_frame [x0e] ++ ex_frame ex_piece].

Lemma framed_ex f : blen f <= 65535 -> framed f (ex_frame f).
Proof.
  intros H. exists (be_bytes 4 (blen f)). split; auto. split; [apply be_bytes_length|]. split; auto. apply be_be_bytes.
  change (256 ^ N.of_nat 4) with 4294967296. lia.
Qed.

Lemma ex_session : bencoded_dict ex_data /\ honest_stream (sha1 ex_data) ex_data (concat ex_stream) /\
  snd (session (sha1 ex_data) (bs "-DM0070-aaaaaaaaaaaa") (V4 2130706433) ex_stream Silent) = SDone (Ok (mkTI (sha1 ex_data) ex_data)).
Proof.
  split; [exact ex_dict|]. split; [|vm_compute; reflexivity].
  exists ex_hello, (be_bytes 8 1048580), (ex_frame ex_shake), ex_shake,
    (mkEH None (Some [(bs "ut_metadata", 3)]) None (Some 40) None), 3,
    [[]; [x0e]; ex_piece], [ex_frame []; ex_frame [x0e]; ex_frame ex_piece],
    [Core Keepalive; Core HaveAll; Meta (MData 0 40 ex_data)], [].
  split; [vm_compute; reflexivity|].
  split; [exists (bs "-TR0000-bbbbbbbbbbbb"); split; [reflexivity|]; vm_compute; auto|].
  split; [vm_compute; discriminate|]. split; [apply framed_ex; vm_compute; discriminate|].
  split; [apply recv_says; vm_compute; reflexivity|]. split; [reflexivity|].
  split; [exists [(bs "ut_metadata", 3)]; split; [reflexivity|left; reflexivity]|]. split; [lia|].
  split; [repeat constructor; apply framed_ex; vm_compute; discriminate|].
  split; [repeat (constructor; [apply recv_says; vm_compute; reflexivity|]); constructor|].
  cbn [map]. apply honest_other; [constructor|]. apply honest_other; [constructor|].
  change (MData 0 40 ex_data) with (MData 0 (blen ex_data) (slice ex_data 0)).
  apply honest_piece; [vm_compute; reflexivity|]. apply honest_done. vm_compute. discriminate.
Qed.

Lemma ex_session_sends :
  length (fst (session (sha1 ex_data) (bs "-DM0070-aaaaaaaaaaaa") (V4 2130706433) ex_stream Silent)) = 4%nat /\
  advertises (be_bytes 8 1048580) Bep10 /\ advertises (be_bytes 8 1048580) Fast.
Proof. split; [vm_compute; reflexivity|]. split; vm_compute; discriminate. Qed.

(** ** No limit after the handshake *)
Lemma keepalives size b i n : fst (fetch_run (Waiting size b i) (repeat (Ok (Core Keepalive)) n)) = Waiting size b i.
Proof.
  induction n as [|n IH]; [reflexivity|]. cbn [repeat fetch_run fetch_step msg_ignorable core_ignorable].
  destruct (fetch_run (Waiting size b i) _). exact IH.
Qed.

Definition lazy_peer (n : nat) : list bytes := [ex_hello; ex_frame ex_shake] ++ repeat (ex_frame []) n.

Lemma lazy_peer_waits n :
  snd (session (sha1 ex_data) (bs "-DM0070-aaaaaaaaaaaa") (V4 2130706433) (lazy_peer n) Silent) = SWaiting.
Proof.
  set (pid := bs "-DM0070-aaaaaaaaaaaa"). set (i := V4 2130706433).
  assert (LP : length pid = 20%nat) by reflexivity. assert (W : wf_ip i) by (vm_compute; reflexivity).
  assert (HH : hello (sha1 ex_data) (be_bytes 8 1048580) ex_hello) by (exists (bs "-TR0000-bbbbbbbbbbbb"); split; [reflexivity|vm_compute; auto]).
  assert (L20 : length (sha1 ex_data) = 20%nat) by (destruct HH as (? & _ & _ & H & _); exact H).
  set (shake := mkEH None (Some [(bs "ut_metadata", 3)]) None (Some 40) None).
  assert (FS : frame_says 42 ex_shake (ExtHandshake shake)) by (apply recv_says; vm_compute; reflexivity).
  assert (HO : offers shake 3) by (exists [(bs "ut_metadata", 3)]; split; [reflexivity|left; reflexivity]).
  assert (EC : concat (lazy_peer n) = ex_hello ++ ex_frame ex_shake ++ concat (repeat (ex_frame []) n)).
  { unfold lazy_peer. rewrite concat_app. cbn [concat]. now rewrite app_nil_r, <- app_assoc. }
  assert (HB : advertises (be_bytes 8 1048580) Bep10) by (vm_compute; discriminate).
  assert (FW : framed ex_shake (ex_frame ex_shake)) by (apply framed_ex; vm_compute; discriminate).
  unfold session. destruct (connect_spec (sha1 ex_data) pid i (lazy_peer n) Silent L20 LP W) as [_ GC].
  destruct (connect_honest (sha1 ex_data) pid i (lazy_peer n) Silent _ _ _ _ _ _ _ LP W EC HH HB FW FS HO ltac:(lia)) as (out & cn & E & EZ & ET).
  rewrite E in *. cbn [fst snd] in GC.
  destruct GC as [[GL GS GR (h1 & reserved1 & w1 & f1 & shake1 & code & EC1 & HH1 & HB1 & FW1 & FS1 & HZ1 & HO1 & HG & HC1)] _].
  destruct (shake_registry _ _ _ FS1) as [HS _].
  destruct (fetch_from_run (sha1 ex_data) cn Silent GL GS ltac:(rewrite HZ1; exact HS) ltac:(exists code; split; [auto|lia])) as (fs' & rem & out2 & FR & EF & _).
  rewrite EF. cbn [snd]. rewrite ET in FR.
  assert (F0 : Forall2 framed (repeat [] n) (repeat (ex_frame []) n)).
  { clear. induction n; cbn [repeat]; constructor; auto. apply framed_ex. vm_compute. discriminate. }
  pose proof (frames_framed _ _ F0 [] [] (Unfinished []) ltac:(constructor; left; cbn; lia)) as FR3. rewrite !app_nil_r in FR3.
  destruct (frames_fun _ _ _ FR _ _ FR3) as [-> ->]. rewrite EZ.
  assert (EV : events (repeat [] n) (verdict (Unfinished []) Silent) = repeat (Ok (Core Keepalive)) n).
  { unfold events. cbn [verdict end_event]. rewrite app_nil_r. clear. induction n; cbn [repeat map]; [reflexivity|rewrite IHn; reflexivity]. }
  rewrite EV. unfold get_metadata_info.
  destruct (fetch_start (sha1 ex_data) (eh_size shake)) as [st0 o0] eqn:EST.
  assert (exists s b j, st0 = Waiting s b j) as (s & b & j & ->).
  { assert (X : match fst (fetch_start (sha1 ex_data) (eh_size shake)) with Waiting _ _ _ => true | _ => false end = true) by (vm_compute; reflexivity).
    rewrite EST in X. cbn [fst] in X. clear EST. destruct st0 as [s b j|r|]; [exists s, b, j; reflexivity|discriminate X|discriminate X]. }
  pose proof (keepalives s b j n) as K. destruct (fetch_run (Waiting s b j) _) as [st1 tr1]. cbn [fst] in K. subst st1. reflexivity.
Qed.

Lemma progress_bounded ih declared evs size b i tr :
  get_metadata_info ih declared evs = (Waiting size b i, tr) ->
  N.of_nat (length (data_received tr)) < 1280 /\ N.of_nat (length (requests_sent tr)) <= 1280.
Proof.
  intros H. apply fetch_inv in H as [-> H]. destruct H as [_ SM _ LT _ RQ DT _ _].
  assert (U : forall n, length (upto n) = N.to_nat n) by (intros; unfold upto; now rewrite map_length, seq_length).
  rewrite RQ, DT, map_length, !U. apply pieces_lt in LT. unfold MAX_INFO_LENGTH in SM. lia.
Qed.

Lemma lazy_peer_refutes n :
  exists reads, concat reads = ex_hello ++ ex_frame ex_shake ++ concat (repeat (ex_frame []) n) /\
    snd (session (sha1 ex_data) (bs "-DM0070-aaaaaaaaaaaa") (V4 2130706433) reads Silent) = SWaiting.
Proof.
  exists (lazy_peer n). split; [|apply lazy_peer_waits]. unfold lazy_peer. rewrite concat_app. cbn [concat].
  now rewrite app_nil_r, <- app_assoc.
Qed.

Lemma connect_result {C} override p requires limit (enc plain : timed (res peer_error C)) l t r :
  run_connect override p requires limit enc plain = (l, t, r) ->
  let ends (f : timed (res peer_error C)) :=
    (exists t0, f = Some (t0, r) /\ t0 <= limit) \/ ((forall t0 a, f = Some (t0, a) -> limit < t0) /\ r = Err ConnectTimeout) in
  match rev l with
  | [] => r = Err CantRequireCrypto
  | true :: _ => ends enc
  | false :: _ => ends plain
  end.
Proof.
  intros E. cbv zeta.
  assert (T : forall (f : timed (res peer_error C)) t0 r0, timeout limit f = (t0, r0) ->
    match r0 with
    | Some a => f = Some (t0, a) /\ t0 <= limit
    | None => forall t1 a, f = Some (t1, a) -> limit < t1
    end).
  { intros f t0 r0. unfold timeout. destruct f as [[t1 a]|].
    - destruct (N.leb_spec t1 limit) as [L|L]; intros X; injection X as <- <-; auto.
      intros t2 b X. injection X as <- <-. exact L.
    - intros X. injection X as <- <-. discriminate. }
  unfold run_connect in E. destruct (get_crypto_mode override p requires) as [[]|e] eqn:G.
  - destruct (timeout limit enc) as [t1 r1] eqn:E1. apply T in E1. injection E as <- <- <-. cbn [rev app].
    destruct r1; [left; eauto|right; auto].
  - destruct (timeout limit enc) as [t1 r1] eqn:E1. apply T in E1.
    destruct (timeout limit plain) as [t2 r2] eqn:E2. apply T in E2.
    destruct r1 as [[c|[]]|]; injection E as <- <- <-; cbn [rev app];
      try (left; eauto; fail); try (right; auto; fail).
    destruct r2; [left; eauto|right; auto].
  - destruct (timeout limit plain) as [t1 r1] eqn:E1. apply T in E1. injection E as <- <- <-. cbn [rev app].
    destruct r1; [left; eauto|right; auto].
  - injection E as <- <- <-. cbn. unfold get_crypto_mode in G.
    destruct override as [[]|]; destruct p, requires; cbn in G; congruence.
Qed.

(** ** A stream that ends *)
Lemma verdict_ends rem e : e <> Silent -> exists x, end_event (verdict rem e) = Some x.
Proof.
  intros H. destruct rem, e; cbn [verdict end_event]; try congruence; eauto. destruct (_ || _); cbn; eauto.
Qed.
Lemma fetch_run_ends evs x : forall st, (exists r, fst (fetch_run st (evs ++ [Err x])) = Finished r) \/ fst (fetch_run st (evs ++ [Err x])) = Crashed.
Proof.
  induction evs as [|ev evs IH]; intros [sz b i|r|]; cbn [app fetch_run]; try (cbn; eauto; fail).
  destruct (fetch_step (Waiting sz b i) ev) as [st1 ms]. specialize (IH st1).
  destruct (fetch_run st1 (evs ++ [Err x])) as [st2 tr]. exact IH.
Qed.
Lemma framed_next_pending e : e <> Silent -> forall reads st buf, fst (fst (fst (framed_next st buf reads e))) <> FramePending.
Proof.
  intros He. induction reads as [|c reads IH]; intros st buf; cbn [framed_next]; destruct (frame_decode st buf) as [f rest|st' rest|]; try discriminate.
  - destruct e; [congruence| |discriminate]. destruct rest; discriminate.
  - apply IH.
Qed.
Lemma read_exact_pending e : e <> Silent -> forall reads n acc, read_exact n acc reads e <> RPending.
Proof.
  intros He. induction reads as [|c reads IH]; intros [|n] acc; cbn [read_exact]; try discriminate.
  - destruct e; congruence.
  - destruct (Nat.leb _ _); [apply IH|discriminate].
Qed.
Lemma connect_ends ih pid i reads e : e <> Silent -> snd (connect ih pid i reads e) <> SWaiting.
Proof.
  intros He. unfold connect. destruct (read_exact 68 [] reads e) as [buf reads1| |] eqn:R; [|discriminate|now apply read_exact_pending in R].
  destruct (handshake_decode buf); [|discriminate]. destruct (negb _); [discriminate|]. cbv zeta. destruct (negb _); [discriminate|].
  destruct local_registry as [local|]; [|discriminate]. destruct (channel_send _ _) as [[b1|]|]; try discriminate.
  pose proof (framed_next_pending e He reads1 Head []) as NP.
  destruct (framed_next Head [] reads1 e) as [[[r st] buf'] reads2]. cbn [fst] in NP.
  destruct r as [f| | |]; try discriminate; [|congruence].
  destruct (recv_event local f) as [[]|]; try discriminate. destruct (eh_registry h) as [remote|]; [|discriminate].
  destruct (negb _); [discriminate|]. destruct (ext_has _ _); [|discriminate]. destruct (channel_send _ _) as [[|]|]; discriminate.
Qed.
Lemma session_ends ih pid i reads e out s :
  length ih = 20%nat -> length pid = 20%nat -> wf_ip i -> e <> Silent -> session ih pid i reads e = (out, s) ->
  exists r, s = SDone r.
Proof.
  intros L1 L2 W He HS. assert (NP : s <> SPanicked) by exact (proj1 (session_authentic _ _ _ _ _ _ _ L1 L2 W HS)).
  revert HS. unfold session. destruct (connect_spec ih pid i reads e L1 L2 W) as [_ GC].
  pose proof (connect_ends ih pid i reads e He) as CE.
  destruct (connect ih pid i reads e) as [o st]. cbn [fst snd] in *.
  destruct st as [[c|x]| |]; [|intros [= <- <-]; eauto|congruence|intros [= <- <-]; congruence].
  destruct GC as [GC FO]. destruct GC as [GL GS GR (h0 & reserved & w0 & f0 & shake & code & EC & HH & HB & FW & FS & HZ & HO & HG & HC)].
  destruct (shake_registry _ _ _ FS) as [HS _].
  destruct (fetch_from_run ih c e GL GS ltac:(rewrite HZ; exact HS) ltac:(exists code; split; [auto|lia])) as (fs & rem & out2 & FR & EF & F2).
  rewrite EF. intros [= <- <-]. destruct (verdict_ends rem e He) as (x & EX). revert NP.
  unfold get_metadata_info, events. rewrite EX. destruct (fetch_start ih (cn_size c)) as [st0 o0].
  pose proof (fetch_run_ends (map (recv_event local_reg) fs) x st0) as HR.
  destruct (fetch_run st0 _) as [st1 tr1]. cbn [fst] in *. destruct HR as [(r & ->)| ->]; cbn; [eauto|congruence].
Qed.
