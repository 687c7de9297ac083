(** Lemmas for C_PeerWire: handshake, extension bits, messages. *)
From Verif Require Import Base BaseFacts S_Bencode M_Bencode P_Bencode S_Utf8 M_Utf8 P_Utf8 M_Net M_Util M_Types P_Types
  M_Compact M_Extensions M_Messages S_Wire P_Wire.

(** ** Handshake *)
Lemma try_get_bytes_iff k buf b r : try_get_bytes k buf = Ok (b, r) <-> buf = b ++ r /\ length b = k.
Proof.
  unfold try_get_bytes. split.
  - destruct (Nat.leb_spec k (length buf)); [|discriminate]. intros [= <- <-].
    rewrite firstn_skipn, firstn_length. split; [auto|lia].
  - intros (-> & <-). rewrite app_length.
    destruct (Nat.leb_spec (length b) (length b + length r)); [|lia].
    now rewrite firstn_app, skipn_app, Nat.sub_diag, firstn_all, skipn_all, app_nil_r.
Qed.

Lemma handshake_decode_iff s h : handshake_decode s = Ok h <-> handshake_wire h s.
Proof.
  unfold handshake_decode, handshake_wire. split.
  - destruct (try_get_bytes 20 s) as [[hd s1]|] eqn:E1; [|discriminate]. cbn [res_map_err res_bind].
    destruct (bytes_eqb_spec hd HANDSHAKE_HEADER) as [->|]; [|discriminate]. cbn [negb].
    destruct (try_get_uint 8 s1) as [[x s2]|] eqn:E2; [|discriminate]. cbn [res_map_err res_bind].
    destruct (try_get_bytes 20 s2) as [[ih s3]|] eqn:E3; [|discriminate]. cbn [res_map_err res_bind].
    destruct (try_get_bytes 20 s3) as [[pid s4]|] eqn:E4; [|discriminate]. cbn [res_map_err res_bind].
    destruct s4; [|discriminate]. cbn [eof res_map_err res_bind]. intros HO. apply Ok_inj in HO. subst h. cbn [hs_ext hs_hash hs_pid].
    apply try_get_bytes_iff in E1 as [-> _], E3 as [-> L3], E4 as [-> L4].
    apply try_get_uint_iff in E2 as (b & -> & L2 & <-).
    exists b. rewrite app_nil_r. auto 10.
  - intros (rsv & -> & L1 & E1 & L2 & L3). 
    change (n2b 19 :: bs "BitTorrent protocol" ++ rsv ++ hs_hash h ++ hs_pid h)
      with (HANDSHAKE_HEADER ++ (rsv ++ hs_hash h ++ hs_pid h)).
    rewrite (proj2 (try_get_bytes_iff 20 _ HANDSHAKE_HEADER _)) by auto. cbn [res_map_err res_bind].
    rewrite bytes_eqb_refl. cbn [negb].
    rewrite (proj2 (try_get_uint_iff 8 _ (be rsv) (hs_hash h ++ hs_pid h))) by eauto. cbn [res_map_err res_bind].
    rewrite (proj2 (try_get_bytes_iff 20 _ (hs_hash h) (hs_pid h))) by auto. cbn [res_map_err res_bind].
    rewrite (proj2 (try_get_bytes_iff 20 _ (hs_pid h) [])) by (rewrite app_nil_r; auto). cbn [res_map_err res_bind eof].
    rewrite E1. now destruct h.
Qed.

Lemma handshake_bytes_wire h :
  hs_ext h < 2 ^ 64 -> length (hs_hash h) = 20%nat -> length (hs_pid h) = 20%nat ->
  handshake_wire h (handshake_bytes h).
Proof.
  intros W L1 L2. exists (be_bytes 8 (hs_ext h)). split; [reflexivity|]. split; [apply be_bytes_length|].
  split; [apply be_be_bytes; exact W|auto].
Qed.

Lemma handshake_wire_unique h s : handshake_wire h s -> s = handshake_bytes h /\ length s = 68%nat.
Proof.
  intros (r & -> & L & E & L1 & L2). split.
  - unfold handshake_bytes, HANDSHAKE_HEADER. rewrite <- E, be_bytes_be by auto. reflexivity.
  - cbn [length]. rewrite !app_length, L, L1, L2. reflexivity.
Qed.

Lemma handshake_codec :
  (forall h, hs_ext h < 2 ^ 64 -> length (hs_hash h) = 20%nat -> length (hs_pid h) = 20%nat ->
     handshake_wire h (handshake_bytes h) /\ length (handshake_bytes h) = 68%nat /\
     handshake_decode (handshake_bytes h) = Ok h) /\
  (forall s h, handshake_decode s = Ok h <-> handshake_wire h s) /\
  (forall s h, handshake_decode s = Ok h -> handshake_bytes h = s /\ length s = 68%nat).
Proof.
  split; [|split].
  - intros h W L1 L2. pose proof (handshake_bytes_wire h W L1 L2) as HW.
    split; [auto|]. split; [now apply handshake_wire_unique in HW|now apply handshake_decode_iff].
  - exact handshake_decode_iff.
  - intros s h H. apply handshake_decode_iff, handshake_wire_unique in H as [-> L]. auto.
Qed.

(** ** Extension bits *)
Lemma testbit_div n k i : N.testbit (n / 2 ^ k) i = N.testbit n (i + k).
Proof. now rewrite N.div_pow2_bits. Qed.

Lemma be_testbit l i j : (i < length l)%nat -> j < 8 ->
  N.testbit (b2n (nth i l x00)) j = N.testbit (be l) (8 * N.of_nat (length l - 1 - i) + j).
Proof.
  revert i. induction l as [|b l IH]; intros i Hi Hj; [cbn in Hi; lia|].
  cbn [be]. pose proof (be_bound l) as B. change 256 with (2 ^ 8) in B at 1. rewrite <- N.pow_mul_r in B.
  change 256 with (2 ^ 8) at 1. rewrite <- N.pow_mul_r.
  destruct i as [|i].
  - cbn [nth length]. replace (S (length l) - 1 - 0)%nat with (length l) by lia.
    rewrite (N.add_comm (8 * _) j), <- testbit_div. f_equal.
    rewrite N.div_add_l by (apply N.pow_nonzero; lia). rewrite N.div_small by auto. lia.
  - cbn [nth length] in *. rewrite IH by lia. replace (S (length l) - 1 - S i)%nat with (length l - 1 - i)%nat by lia.
    assert (Hlt : 8 * N.of_nat (length l - 1 - i) + j < 8 * N.of_nat (length l)) by lia.
    rewrite <- (N.mod_pow2_bits_low (b2n b * _ + be l) (8 * N.of_nat (length l))) by auto.
    rewrite (N.add_comm (b2n b * _)), N.mod_add by (apply N.pow_nonzero; lia). now rewrite N.mod_small.
Qed.

Lemma land_pow2 a k : N.land a (2 ^ k) <> 0 <-> N.testbit a k = true.
Proof.
  split.
  - intros H. destruct (N.testbit a k) eqn:E; auto. exfalso. apply H. apply N.bits_inj. intros i.
    rewrite N.land_spec, N.bits_0, N.pow2_bits_eqb. destruct (N.eqb_spec k i) as [<-|]; [now rewrite E|apply andb_false_r].
  - intros H E. apply (f_equal (fun n => N.testbit n k)) in E.
    rewrite N.land_spec, N.pow2_bits_true, H, N.bits_0 in E. discriminate.
Qed.

Lemma ext_has_bit s e : ext_has s e = N.testbit s (ext_pos e).
Proof.
  unfold ext_has, ext_bit. rewrite N.shiftl_1_l. pose proof (land_pow2 s (ext_pos e)) as [H1 H2].
  destruct (N.eqb_spec (N.land s (2 ^ ext_pos e)) 0) as [E|E]; cbn [negb].
  - destruct (N.testbit s (ext_pos e)); auto. now destruct (H2 eq_refl).
  - symmetry. auto.
Qed.

Lemma advertises_bit r e : length r = 8%nat -> (advertises r e <-> N.testbit (be r) (ext_pos e) = true).
Proof.
  intros L. unfold advertises. destruct e; cbn [reserved_bit ext_pos].
  all: match goal with |- N.land (b2n (nth ?i _ _)) ?m <> 0 <-> _ =>
         let k := eval vm_compute in (N.log2 m) in
         change m with (2 ^ k); rewrite land_pow2, be_testbit by lia; rewrite L end; reflexivity.
Qed.

Lemma ext_from_bits l i : N.testbit (ext_from l) i = existsb (fun e => i =? ext_pos e) l.
Proof.
  unfold ext_from. assert (G : forall a, N.testbit (fold_left (fun v e => N.lor v (ext_bit e)) l a) i
    = N.testbit a i || existsb (fun e => i =? ext_pos e) l); [|rewrite G, N.bits_0; reflexivity].
  induction l as [|e l IH]; intros a; cbn [fold_left existsb]; [now rewrite orb_false_r|].
  rewrite IH, N.lor_spec, <- orb_assoc. f_equal. f_equal. unfold ext_bit. rewrite N.shiftl_1_l, N.pow2_bits_eqb.
  apply N.eqb_sym.
Qed.

Lemma reserved_inj e1 e2 : reserved_bit e1 = reserved_bit e2 -> e1 = e2.
Proof. destruct e1, e2; cbn; congruence. Qed.

Lemma negotiation :
  (forall r1 r2 e, length r1 = 8%nat -> length r2 = 8%nat ->
     (ext_has (ext_and (be r1) (be r2)) e = true <-> advertises r1 e /\ advertises r2 e)) /\
  (forall l e, ext_has (ext_from l) e = true <-> In e l) /\
  (forall l e, advertises (be_bytes 8 (ext_from l)) e <-> In e l) /\
  (forall e1 e2, reserved_bit e1 = reserved_bit e2 -> e1 = e2).
Proof.
  assert (FI : forall l e, ext_has (ext_from l) e = true <-> In e l).
  { intros l e. rewrite ext_has_bit, ext_from_bits, existsb_exists. split.
    - intros (x & HI & E). apply N.eqb_eq in E. replace e with x; auto. now destruct e, x.
    - intros HI. exists e. rewrite N.eqb_refl. auto. }
  split; [|split; [|split]].
  - intros r1 r2 e L1 L2. rewrite ext_has_bit. unfold ext_and. rewrite N.land_spec, andb_true_iff.
    now rewrite <- !advertises_bit.
  - exact FI.
  - intros l e. rewrite advertises_bit by apply be_bytes_length. rewrite <- FI, ext_has_bit.
    rewrite be_be_bytes; [reflexivity|]. change (256 ^ N.of_nat 8) with (2 ^ 64).
    destruct (N.eq_dec (ext_from l) 0) as [->|NZ]; [reflexivity|].
    apply N.log2_lt_pow2; [lia|].
    pose proof (N.bit_log2 _ NZ) as B. rewrite ext_from_bits, existsb_exists in B. destruct B as (x & _ & B).
    apply N.eqb_eq in B. rewrite B. destruct x; reflexivity.
  - exact reserved_inj.
Qed.

(** ** Core messages *)
Lemma integers_iff l b : integers l b ->
  Forall (fun kn => snd kn < 256 ^ N.of_nat (fst kn)) l /\ b = concat (map (fun kn => be_bytes (fst kn) (snd kn)) l).
Proof.
  induction 1 as [|k n l b r L E _ [IH1 IH2]]; [auto|]. split.
  - constructor; auto. cbn [fst snd]. subst. apply be_bound.
  - cbn [map concat fst snd]. rewrite <- IH2. f_equal. subst. symmetry. now apply be_bytes_be.
Qed.
Lemma integers_of l : Forall (fun kn => snd kn < 256 ^ N.of_nat (fst kn)) l ->
  integers l (concat (map (fun kn => be_bytes (fst kn) (snd kn)) l)).
Proof.
  induction 1 as [|[k n] l H _ IH]; cbn [map concat]; constructor; auto; [apply be_bytes_length|now apply be_be_bytes].
Qed.

Lemma core_encode_wire m : core_ok m -> core_wire m (core_encode m).
Proof.
  unfold core_ok, core_wire. intros W.
  destruct m; cbn [layout core_encode] in *; auto;
    (eexists; split; [apply integers_of; exact W|cbn [map concat fst snd app]; rewrite ?app_nil_r, <- ?app_assoc; reflexivity]).
Qed.

Lemma core_wire_unique m s : core_wire m s -> core_ok m /\ s = core_encode m.
Proof.
  unfold core_wire, core_ok.
  destruct m; cbn [layout core_encode];
    try (intros ->; auto);
    intros (bb & HI & ->); apply integers_iff in HI as [HF ->]; (split; [exact HF|]);
    cbn [map concat fst snd app]; rewrite ?app_nil_r, <- ?app_assoc; reflexivity.
Qed.

Ltac getu H :=
  match type of H with
  | res_bind (res_map_err _ (try_get_uint ?k ?b)) _ = _ =>
      let E := fresh "E" in
      destruct (try_get_uint k b) as [[? ?]|] eqn:E; [|discriminate H]; cbn [res_map_err res_bind] in H;
      apply try_get_uint_iff in E as (? & -> & ? & <-)
  end.
Ltac geteof H :=
  unfold get_eof in H;
  match type of H with
  | res_bind (res_map_err _ (eof ?b)) _ = _ => destruct b; [|discriminate H]; cbn [eof res_map_err res_bind] in H
  end.

Lemma core_decode_sound s m : core_decode s = Ok m -> core_ok m /\ s = core_encode m.
Proof.
  unfold core_decode. destruct s as [|t s]; [intros [= <-]; split; [exact I|reflexivity]|].
  intros H. destruct t; try discriminate H; unfold get_u32_eof, get_3u32_eof in H;
    repeat getu H; try geteof H; apply Ok_inj in H; subst m; unfold core_ok, core_encode, u32, u16; cbn [layout];
    rewrite ?be_bytes_be by assumption; rewrite ?app_nil_r; (split; [|reflexivity]);
    repeat match goal with
    | |- Forall _ [] => constructor
    | |- Forall _ (_ :: _) => constructor; [cbn [fst snd]|]
    | L : length ?x = ?k |- be ?x < 256 ^ N.of_nat ?k => rewrite <- L; apply be_bound
    end.
Qed.

Ltac putu :=
  match goal with
  | |- context [try_get_uint ?k (be_bytes ?k ?n ++ ?r)] =>
      rewrite (proj2 (try_get_uint_iff k (be_bytes k n ++ r) n r))
        by (exists (be_bytes k n); split; [reflexivity|split; [apply be_bytes_length|apply be_be_bytes; assumption]]);
      cbn [res_map_err res_bind]
  | |- context [try_get_uint ?k (be_bytes ?k ?n)] => rewrite <- (app_nil_r (be_bytes k n))
  end.

Lemma core_decode_complete m : core_ok m -> core_decode (core_encode m) = Ok m.
Proof.
  intros W. unfold core_ok in W.
  destruct m; cbn [layout] in W; cbn [core_encode core_decode]; unfold get_u32_eof, get_3u32_eof, u32, u16;
    repeat match goal with H : Forall _ (_ :: _) |- _ => inversion H; clear H; subst end;
    cbn [fst snd] in *; repeat putu; reflexivity.
Qed.

Lemma core_codec :
  (forall m, core_ok m -> core_wire m (core_encode m)) /\
  (forall m s, core_wire m s -> s = core_encode m) /\
  (forall s m, core_decode s = Ok m <-> core_ok m /\ core_wire m s).
Proof.
  split; [exact core_encode_wire|]. split; [intros m s H; now apply core_wire_unique in H|].
  intros s m. split.
  - intros H. apply core_decode_sound in H as [W ->]. auto using core_encode_wire.
  - intros [W H]. apply core_wire_unique in H as [_ ->]. now apply core_decode_complete.
Qed.
