(** Lemmas for C_PeerWire: extended handshake, metadata messages, registry. *)
From Verif Require Import Base BaseFacts S_Bencode M_Bencode P_Bencode S_Utf8 M_Utf8 P_Utf8 M_Net M_Util
  M_Extensions M_Messages S_Wire P_Wire P_PeerWire.

(** ** Dictionaries *)
Lemma ascending_lt_all k ks : ascending (k :: ks) -> Forall (fun k' => bytes_ltb k k' = true) ks.
Proof.
  revert k; induction ks as [|k2 ks IH]; intros k H; constructor.
  - apply H.
  - destruct H as [H1 H2]. eapply Forall_impl; [|apply IH; exact H2]. intros a. apply bytes_ltb_trans; auto.
Qed.

Lemma ascending_nodup ks : ascending ks -> NoDup ks.
Proof.
  induction ks as [|k ks IH]; intros H; constructor.
  - intros HI. apply ascending_lt_all in H. rewrite Forall_forall in H. specialize (H _ HI).
    now rewrite bytes_ltb_irrefl in H.
  - apply IH. apply ascending_cons in H. tauto.
Qed.

Lemma lookup_none k d : ~ In k (map fst d) -> lookup k d = None.
Proof.
  induction d as [|[k' v] d IH]; intros H; [reflexivity|]. cbn [lookup map fst] in *.
  destruct (bytes_eqb_spec k k') as [->|]; [cbn in H; tauto|]. apply IH. cbn in H. tauto.
Qed.

Lemma lookup_cons_eq k v d : lookup k ((k, v) :: d) = Some v.
Proof. cbn. now rewrite bytes_eqb_refl. Qed.
Lemma lookup_cons_ne k k' v d : k <> k' -> lookup k ((k', v) :: d) = lookup k d.
Proof. intros. cbn. destruct (bytes_eqb_spec k k'); congruence. Qed.

(** Field with a default: what a fold over the pairs computes. *)
Definition field_or {A} (R : value -> A -> Prop) (k : bytes) (d : list (bytes * value)) (o0 o : option A) : Prop :=
  match lookup k d with
  | None => o = o0
  | Some v => exists a, o = Some a /\ R v a
  end.

Lemma field_or_none {A} (R : value -> A -> Prop) k d o : field_or R k d None o <-> field R k d o.
Proof.
  unfold field_or, field. destruct (lookup k d), o; split; try tauto; try congruence.
  - intros (x & [= <-] & H). auto.
  - eauto.
  - intros (x & [=] & _).
Qed.

Lemma field_or_skip {A} (R : value -> A -> Prop) k k' v d o0 o : k <> k' ->
  (field_or R k ((k', v) :: d) o0 o <-> field_or R k d o0 o).
Proof. intros. unfold field_or. now rewrite lookup_cons_ne. Qed.

Lemma field_or_take {A} (R : value -> A -> Prop) k v d o0 o : ~ In k (map fst d) ->
  (field_or R k ((k, v) :: d) o0 o <-> exists a, R v a /\ field_or R k d (Some a) o).
Proof.
  intros H. unfold field_or. rewrite lookup_cons_eq, lookup_none by auto. split.
  - intros (a & -> & HR). eauto.
  - intros (a & HR & ->). eauto.
Qed.

(** ** Conversions *)
Lemma as_uint_iff bits v n : as_uint bits v = Some n <-> uint bits v n.
Proof.
  unfold as_uint, uint. split.
  - destruct v as [z|s|l|d]; try discriminate.
    destruct (andb_true_iff (0 <=? z)%Z (z <? 2 ^ Z.of_N bits)%Z) as [H _].
    destruct ((0 <=? z)%Z && (z <? 2 ^ Z.of_N bits)%Z); [|discriminate]. destruct (H eq_refl) as [H1 H2]. intros [= <-].
    apply Z.leb_le in H1. apply Z.ltb_lt in H2. rewrite Z2N.id by lia. split; auto.
    apply N2Z.inj_lt. rewrite Z2N.id, N2Z.inj_pow by lia. exact H2.
  - intros [-> H]. apply N2Z.inj_lt in H. rewrite N2Z.inj_pow in H. change (Z.of_N 2) with 2%Z in H.
    destruct (Z.leb_spec 0 (Z.of_N n)); [|lia]. destruct (Z.ltb_spec (Z.of_N n) (2 ^ Z.of_N bits)); [|lia].
    cbn [andb]. now rewrite N2Z.id.
Qed.

Lemma uint_fun bits v n n' : uint bits v n -> uint bits v n' -> n = n'.
Proof. intros [-> _] [E _]. injection E as E. now apply N2Z.inj. Qed.

Lemma as_string_iff v s : as_string v = Some s <-> text v s.
Proof.
  unfold as_string, text. split.
  - destruct v as [z|b|l|d]; try discriminate. destruct (utf8_valid b) eqn:E; [|discriminate]. intros [= <-].
    split; auto. now apply utf8_valid_iff.
  - intros [-> H]. apply utf8_valid_iff in H. now rewrite H.
Qed.

Lemma flag_iff v b : (leto x := as_uint 8 v in Some (negb (x =? 0))) = Some b <-> flag v b.
Proof.
  unfold flag. split.
  - destruct (as_uint 8 v) as [n|] eqn:E; [|discriminate]. cbn [obind]. intros [= <-].
    apply as_uint_iff in E. exists n. split; auto. destruct (N.eqb_spec n 0); cbn; split; congruence.
  - intros (n & H & B). apply as_uint_iff in H. rewrite H. cbn [obind]. f_equal.
    destruct (N.eqb_spec n 0); cbn [negb]; destruct b; auto; destruct B as [B1 B2]; try congruence.
    + now destruct B1.
    + symmetry. auto.
Qed.

Lemma decode_m_iff d m : decode_m d = Some m <->
  Forall2 (fun kv kn => fst kv = fst kn /\ text (VBytes (fst kv)) (fst kn) /\ uint 8 (snd kv) (snd kn)) d m.
Proof.
  revert m. induction d as [|[k v] d IH]; intros m.
  - cbn. split; [intros [= <-]; constructor|intros H; inversion H; auto].
  - cbn [decode_m]. split.
    + destruct (utf8_valid k) eqn:U; [|discriminate]. destruct (as_uint 8 v) as [n|] eqn:E; [|discriminate]. cbn [obind].
      destruct (decode_m d) as [m'|] eqn:ED; [|discriminate]. cbn [obind]. intros [= <-].
      constructor; [|now apply IH]. cbn [fst snd]. split; auto. split; [|now apply as_uint_iff].
      split; auto. now apply utf8_valid_iff.
    + intros H. inversion H as [|? [k' n] ? m' (H1 & H2 & H3) HR]; subst. cbn [fst snd] in *. subst k'.
      destruct H2 as [_ HU]. apply utf8_valid_iff in HU. rewrite HU. apply as_uint_iff in H3. rewrite H3. cbn [obind].
      apply IH in HR. rewrite HR. reflexivity.
Qed.

Lemma code_map_iff v m : (leto d := as_dict v in decode_m d) = Some m <-> code_map v m.
Proof.
  unfold code_map. split.
  - destruct v as [z|b|l|d]; try discriminate. cbn [as_dict obind]. intros H. exists d. split; auto. now apply decode_m_iff.
  - intros (d & -> & H). cbn [as_dict obind]. now apply decode_m_iff.
Qed.

Lemma compact_ip_iff s i : from_compact_ip s = Some i <-> address_bytes i s.
Proof.
  unfold from_compact_ip. split.
  - destruct (Nat.eqb_spec (length s) 4) as [L|L]; [intros [= <-]; split; auto; apply be_be_val|].
    destruct (Nat.eqb_spec (length s) 16) as [L'|L']; [intros [= <-]; split; auto; apply be_be_val|discriminate].
  - destruct i; cbn [address_bytes]; intros [L E]; rewrite L; cbn [Nat.eqb]; now rewrite <- be_be_val, E.
Qed.

Lemma ip_field_iff v i : (leto s := as_bytes v in from_compact_ip s) = Some i <-> ip_field v i.
Proof.
  unfold ip_field. split.
  - destruct v as [z|b|l|d]; try discriminate. cbn [as_bytes obind]. intros H. exists b. split; auto. now apply compact_ip_iff.
  - intros (s & -> & H). cbn [as_bytes obind]. now apply compact_ip_iff.
Qed.

(** ** Extended handshake *)
Definition eh_or (d : list (bytes * value)) (h0 h : ext_handshake) : Prop :=
  field_or flag (bs "e") d (eh_e h0) (eh_e h) /\
  field_or code_map (bs "m") d (eh_m h0) (eh_m h) /\
  field_or text (bs "v") d (eh_v h0) (eh_v h) /\
  field_or (uint 32) (bs "metadata_size") d (eh_size h0) (eh_size h) /\
  field_or ip_field (bs "yourip") d (eh_yourip h0) (eh_yourip h).

Ltac keyneq := let E := fresh in intros E; discriminate E.

Lemma obind_some {A B} (o : option A) (f : A -> option B) b : obind o f = Some b <-> exists a, o = Some a /\ f a = Some b.
Proof. destruct o; cbn; split; eauto; [intros (? & [= <-] & ?); auto|discriminate|intros (? & [=] & _)]. Qed.
Lemma obind_assoc {A B C} (o : option A) (f : A -> option B) (g : B -> option C) :
  obind (obind o f) g = obind o (fun a => obind (f a) g).
Proof. now destruct o. Qed.

Ltac conjs := repeat match goal with |- _ /\ _ => split end.
Ltac ehs H := unfold eh_or in H; cbn [eh_e eh_m eh_v eh_size eh_yourip] in H;
  destruct H as (? & ? & ? & ? & ?); conjs; eauto.

Lemma eh_fields_iff d : NoDup (map fst d) -> forall h0 h, eh_fields d h0 = Some h <-> eh_or d h0 h.
Proof.
  induction d as [|[k v] d IH]; intros ND h0 h.
  - unfold eh_or, field_or. cbn [lookup eh_fields]. destruct h0 as [a1 a2 a3 a4 a5], h as [b1 b2 b3 b4 b5]; cbn [eh_e eh_m eh_v eh_size eh_yourip]. split; [intros [= -> -> -> -> ->]; auto 10|intros (-> & -> & -> & -> & ->); auto].
  - cbn [map fst] in ND. inversion ND as [|? ? NI ND']; subst. specialize (IH ND'). cbn [eh_fields].
    destruct (bytes_eqb_spec k (bs "e")) as [->|N1].
    { unfold eh_or. rewrite field_or_take by auto. rewrite !field_or_skip by keyneq.
      transitivity (exists b, flag v b /\ eh_fields d (mkEH (Some b) (eh_m h0) (eh_v h0) (eh_size h0) (eh_yourip h0)) = Some h).
      - split.
        + intros H. apply obind_some in H as (n & H1 & H2). exists (negb (n =? 0)). split; auto.
          apply flag_iff. now rewrite H1.
        + intros (b & H1 & H2). apply flag_iff in H1. apply obind_some in H1 as (n & H1 & [= <-]). rewrite H1. exact H2.
      - split; [intros (b & H1 & H2); apply IH in H2; ehs H2|].
        intros ((b & H1 & H2) & H3). exists b. split; auto. apply IH. unfold eh_or. cbn [eh_e eh_m eh_v eh_size eh_yourip]. conjs; tauto. }
    destruct (bytes_eqb_spec k (bs "m")) as [->|N2].
    { unfold eh_or. rewrite field_or_take by auto. rewrite !field_or_skip by keyneq.
      rewrite <- (obind_assoc (as_dict v)). rewrite obind_some.
      split; [intros (b & H1 & H2); apply code_map_iff in H1; apply IH in H2; ehs H2|].
      intros (H0 & (b & H1 & H2) & H3). exists b. split; [now apply code_map_iff|]. apply IH. unfold eh_or. cbn [eh_e eh_m eh_v eh_size eh_yourip]. conjs; tauto. }
    destruct (bytes_eqb_spec k (bs "v")) as [->|N3].
    { unfold eh_or. rewrite field_or_take by auto. rewrite !field_or_skip by keyneq.
      rewrite obind_some.
      split; [intros (b & H1 & H2); apply as_string_iff in H1; apply IH in H2; ehs H2|].
      intros (H0 & H0' & (b & H1 & H2) & H3). exists b. split; [now apply as_string_iff|]. apply IH. unfold eh_or. cbn [eh_e eh_m eh_v eh_size eh_yourip]. conjs; tauto. }
    destruct (bytes_eqb_spec k (bs "metadata_size")) as [->|N4].
    { unfold eh_or. rewrite field_or_take by auto. rewrite !field_or_skip by keyneq.
      rewrite obind_some.
      split; [intros (b & H1 & H2); apply as_uint_iff in H1; apply IH in H2; ehs H2|].
      intros (H0 & H0' & H0'' & (b & H1 & H2) & H3). exists b. split; [now apply as_uint_iff|]. apply IH. unfold eh_or. cbn [eh_e eh_m eh_v eh_size eh_yourip]. conjs; tauto. }
    destruct (bytes_eqb_spec k (bs "yourip")) as [->|N5].
    { unfold eh_or. rewrite field_or_take by auto. rewrite !field_or_skip by keyneq.
      rewrite <- (obind_assoc (as_bytes v)). rewrite obind_some.
      split; [intros (b & H1 & H2); apply ip_field_iff in H1; apply IH in H2; ehs H2|].
      intros (H0 & H0' & H0'' & H0''' & (b & H1 & H2)). exists b. split; [now apply ip_field_iff|]. apply IH. unfold eh_or. cbn [eh_e eh_m eh_v eh_size eh_yourip]. conjs; tauto. }
    rewrite IH. unfold eh_or. rewrite !field_or_skip by congruence. tauto.
Qed.

Lemma eh_decode_iff s h : eh_decode s = Ok h <->
  exists d, s = encode (VDict d) /\ canonical (VDict d) /\ (depth (VDict d) <= 2048)%nat /\ ext_handshake_says d h.
Proof.
  assert (G : forall d, canonical (VDict d) -> (eh_fields d (mkEH None None None None None) = Some h <-> ext_handshake_says d h)).
  { intros d [A _]. rewrite eh_fields_iff by now apply ascending_nodup. unfold eh_or, ext_handshake_says. cbn [eh_e eh_m eh_v eh_size eh_yourip].
    now rewrite !field_or_none. }
  unfold eh_decode. split.
  - destruct (decode_tree DEFAULT_MAX_DEPTH s) as [v|] eqn:E; [|discriminate]. destruct v as [z|b|l|d]; try discriminate.
    apply decode_tree_iff in E as (-> & C & D). intros H. exists d. repeat split; auto; try apply C.
    all: apply G; auto; destruct (eh_fields d _); cbn in H; congruence.
  - intros (d & -> & C & D & H). rewrite (proj2 (decode_tree_iff DEFAULT_MAX_DEPTH _ (VDict d))) by auto.
    apply G in H; auto. now rewrite H.
Qed.

(** Encoding *)
Lemma ascendingb_iff ks : ascendingb ks = true <-> ascending ks.
Proof.
  induction ks as [|k1 ks IH]; [cbn; tauto|]. destruct ks as [|k2 ks]; [cbn; tauto|].
  change (ascendingb (k1 :: k2 :: ks)) with (bytes_ltb k1 k2 && ascendingb (k2 :: ks)).
  rewrite andb_true_iff, IH. reflexivity.
Qed.

Lemma sortedb_iff v : sortedb v = true <-> canonical v.
Proof.
  induction v as [z|s|l IH|l IH] using value_ind'; cbn [sortedb canonical]; try tauto.
  - rewrite forallb_forall, fold_and_Forall, Forall_forall. rewrite Forall_forall in IH. firstorder.
  - rewrite andb_true_iff, ascendingb_iff, forallb_forall, (fold_and_Forall (fun kv => canonical (snd kv))), Forall_forall.
    rewrite Forall_forall in IH. split; intros [H1 H2]; split; auto; intros x Hx; apply IH; auto.
Qed.

Lemma to_bencode_ok k v : canonical v -> (depth v <= k)%nat -> to_bencode k v = Ret (encode v).
Proof.
  intros C D. unfold to_bencode. apply sortedb_iff in C. rewrite C. apply Nat.leb_le in D. now rewrite D.
Qed.

Lemma code_dict_canonical (m : list (bytes * N)) : ascending (map fst m) ->
  canonical (VDict (map (fun kc => (fst kc, vnat (snd kc))) m)) /\
  (depth (VDict (map (fun kc => (fst kc, vnat (snd kc))) m)) <= 1)%nat.
Proof.
  intros A. split; [split|].
  - now rewrite map_map.
  - apply (fold_and_Forall (fun kv => canonical (snd kv))). apply Forall_map, Forall_forall. cbn. auto.
  - cbn [depth]. apply le_n_S. apply (fold_max_le (fun kv => depth (snd kv))). apply Forall_map, Forall_forall. cbn. auto.
Qed.

Lemma lookup_opt_eq k o r : lookup k (opt_pair k o ++ r) = match o with Some v => Some v | None => lookup k r end.
Proof. destruct o; cbn [opt_pair app]; [apply lookup_cons_eq|reflexivity]. Qed.
Lemma lookup_opt_ne k k' o r : k <> k' -> lookup k (opt_pair k' o ++ r) = lookup k r.
Proof. intros. destruct o; cbn [opt_pair app]; [now apply lookup_cons_ne|reflexivity]. Qed.
Lemma lookup_opt_ne' k k' o : k <> k' -> lookup k (opt_pair k' o) = None.
Proof. intros. destruct o; cbn [opt_pair]; [now rewrite lookup_cons_ne|reflexivity]. Qed.
Lemma lookup_opt_eq' k o : lookup k (opt_pair k o) = o.
Proof. destruct o; cbn [opt_pair]; [apply lookup_cons_eq|reflexivity]. Qed.

Lemma eh_value_ok h : ext_handshake_ok h ->
  exists d, eh_value h = VDict d /\ canonical (VDict d) /\ (depth (VDict d) <= 2)%nat /\ ext_handshake_says d h.
Proof.
  intros (HM & HV & HS & HI). unfold eh_value. eexists. split; [reflexivity|].
  destruct h as [e m v sz ip0]. cbn [eh_e eh_m eh_v eh_size eh_yourip] in *.
  assert (CM : forall x, m = Some x -> code_map (VDict (map (fun kc => (fst kc, vnat (snd kc))) x)) x).
  { intros x Hx. eexists. split; [reflexivity|]. destruct (HM x Hx) as [_ F]. clear -F.
    induction F as [|[k c] x [H1 H2] _ IH]; constructor; auto. cbn [fst snd] in *. split; auto. split; [split; auto|split; auto]. }
  assert (FE : forall b : bool, flag (vnat (if b then 1 else 0)) b).
  { intros b. exists (if b then 1 else 0). split; [split; [reflexivity|destruct b; reflexivity]|]. destruct b; split; congruence. }
  split; [split|split].
  - destruct e, m, sz, v, ip0; cbn; auto 10.
  - apply (fold_and_Forall (fun kv => canonical (snd kv))).
    repeat (apply Forall_app; split);
      match goal with |- Forall _ (opt_pair _ (option_map _ ?o)) => destruct o eqn:? end; cbn [option_map opt_pair]; repeat constructor; try exact I.
    + cbn [snd]. apply code_dict_canonical. now apply (HM l).
    + apply (code_dict_canonical l). now apply (HM l).
  - cbn [depth]. apply le_n_S. apply (fold_max_le (fun kv => depth (snd kv))).
    repeat (apply Forall_app; split);
      match goal with |- Forall _ (opt_pair _ (option_map _ ?o)) => destruct o eqn:? end; cbn [option_map opt_pair];
      constructor; try (apply Forall_nil); try (cbn; lia).
    cbn [snd]. apply (code_dict_canonical l). now apply (HM l).
  - unfold ext_handshake_says. cbn [eh_e eh_m eh_v eh_size eh_yourip].
    unfold field. conjs;
      repeat first [rewrite lookup_opt_eq | rewrite lookup_opt_eq' | rewrite lookup_opt_ne by keyneq | rewrite lookup_opt_ne' by keyneq].
    + destruct e; cbn [option_map]; auto.
    + destruct m; cbn [option_map]; auto.
    + destruct v; cbn [option_map]; auto. split; auto.
    + destruct sz; cbn [option_map]; auto. split; auto.
    + destruct ip0; cbn [option_map]; auto. eexists. split; [reflexivity|]. apply address_octets; auto.
Qed.

Lemma eh_roundtrip h : ext_handshake_ok h -> exists s, eh_encode h = Ret s /\ eh_decode s = Ok h.
Proof.
  intros H. destruct (eh_value_ok h H) as (d & E & C & D & S). unfold eh_encode. rewrite E, to_bencode_ok by (auto; lia).
  eexists. split; [reflexivity|]. apply eh_decode_iff. exists d. repeat split; auto; try apply C; try apply S. lia.
Qed.

(** ** Metadata messages *)
Lemma mm_fields_iff d : NoDup (map fst d) -> forall ty0 pc0 ts0 ty pc ts,
  mm_fields d (ty0, pc0, ts0) = Some (ty, pc, ts) <->
  field_or (uint 8) (bs "msg_type") d ty0 ty /\ field_or (uint 32) (bs "piece") d pc0 pc /\
  field_or (uint 32) (bs "total_size") d ts0 ts.
Proof.
  induction d as [|[k v] d IH]; intros ND ty0 pc0 ts0 ty pc ts.
  - unfold field_or. cbn [lookup mm_fields]. split; [intros [= -> -> ->]; auto|intros (-> & -> & ->); auto].
  - cbn [map fst] in ND. inversion ND as [|? ? NI ND']; subst. specialize (IH ND'). cbn [mm_fields].
    destruct (bytes_eqb_spec k (bs "msg_type")) as [->|N1].
    { rewrite field_or_take by auto. rewrite !field_or_skip by keyneq. rewrite obind_some. split.
      - intros (n & H1 & H2). apply as_uint_iff in H1. apply IH in H2 as (? & ? & ?). conjs; eauto.
      - intros ((n & H1 & H2) & H3). exists n. split; [now apply as_uint_iff|]. apply IH. tauto. }
    destruct (bytes_eqb_spec k (bs "piece")) as [->|N2].
    { rewrite field_or_take by auto. rewrite !field_or_skip by keyneq. rewrite obind_some. split.
      - intros (n & H1 & H2). apply as_uint_iff in H1. apply IH in H2 as (? & ? & ?). conjs; eauto.
      - intros (H0 & (n & H1 & H2) & H3). exists n. split; [now apply as_uint_iff|]. apply IH. tauto. }
    destruct (bytes_eqb_spec k (bs "total_size")) as [->|N3].
    { rewrite field_or_take by auto. rewrite !field_or_skip by keyneq. rewrite obind_some. split.
      - intros (n & H1 & H2). apply as_uint_iff in H1. apply IH in H2 as (? & ? & ?). conjs; eauto.
      - intros (H0 & H3 & (n & H1 & H2)). exists n. split; [now apply as_uint_iff|]. apply IH. tauto. }
    rewrite IH. rewrite !field_or_skip by congruence. tauto.
Qed.

Lemma mm_fields_none d : NoDup (map fst d) -> forall ty pc ts,
  mm_fields d (None, None, None) = Some (ty, pc, ts) <->
  field (uint 8) (bs "msg_type") d ty /\ field (uint 32) (bs "piece") d pc /\ field (uint 32) (bs "total_size") d ts.
Proof. intros ND ty pc ts. rewrite mm_fields_iff by auto. now rewrite !field_or_none. Qed.

Lemma field_fun {A} (R : value -> A -> Prop) k d o o' :
  (forall v a a', R v a -> R v a' -> a = a') -> field R k d o -> field R k d o' -> o = o'.
Proof.
  unfold field. intros F. destruct (lookup k d), o, o'; intros H1 H2; try tauto; try congruence. f_equal. eauto.
Qed.

Lemma mm_decode_iff s m : mm_decode s = Ok m <->
  exists d rest, s = encode (VDict d) ++ rest /\ canonical (VDict d) /\ (depth (VDict d) <= 2)%nat /\
    metadata_says d rest m.
Proof.
  unfold mm_decode. split.
  - destruct (parse 2 s) as [[v rest]|] eqn:E; [|discriminate]. apply parse_iff in E as (-> & C & D).
    destruct v as [z|b|l|d]; try discriminate. intros H. exists d, rest. conjs; auto; try apply C.
    destruct (mm_fields d (None, None, None)) as [[[ty pc] ts]|] eqn:E; [|discriminate].
    destruct ty as [ty|]; [|discriminate]. destruct pc as [pc|]; [|discriminate].
    apply mm_fields_none in E; [|apply ascending_nodup; apply C]. destruct E as (F1 & F2 & F3).
    exists ty, pc, ts. conjs; auto.
    destruct (N.eqb_spec ty 0); [destruct rest; [|discriminate]; apply Ok_inj in H; subst m; auto|].
    destruct (N.eqb_spec ty 1); [destruct ts; [|discriminate]; apply Ok_inj in H; subst m; auto|].
    destruct (N.eqb_spec ty 2); [destruct rest; [|discriminate]; apply Ok_inj in H; subst m; auto|].
    apply Ok_inj in H; subst m. split; auto. lia.
  - intros (d & rest & -> & C & D & (ty & pc & ts & F1 & F2 & F3 & M)).
    rewrite (proj2 (parse_iff 2 _ (VDict d) rest)) by auto.
    rewrite (proj2 (mm_fields_none d (ascending_nodup _ (proj1 C)) (Some ty) (Some pc) ts)) by auto.
    destruct m as [p|p t dat|p|t].
    + destruct M as (-> & -> & ->). reflexivity.
    + destruct M as (-> & -> & -> & ->). reflexivity.
    + destruct M as (-> & -> & ->). reflexivity.
    + destruct M as (L & ->). destruct (N.eqb_spec ty 0); [lia|]. destruct (N.eqb_spec ty 1); [lia|].
      destruct (N.eqb_spec ty 2); [lia|]. reflexivity.
Qed.

Lemma mm_roundtrip m : metadata_ok m -> exists s, mm_encode m = Ret s /\ mm_decode s = Ok m.
Proof.
  intros W. unfold mm_encode.
  assert (G : forall d rest, mm_header m = VDict d -> canonical (VDict d) -> (depth (VDict d) <= 2)%nat ->
     metadata_says d rest m -> (match m with MData _ _ p => p | _ => [] end) = rest ->
     exists s, (match to_bencode 3 (mm_header m) with
                | Ret h => Ret (h ++ match m with MData _ _ p => p | _ => [] end) | Panic => Panic end) = Ret s /\
        mm_decode s = Ok m).
  { intros d rest E C D S R. rewrite E, to_bencode_ok by (auto; lia). eexists. split; [reflexivity|].
    apply mm_decode_iff. exists d, rest. conjs; auto; try apply C. now rewrite R. }
  destruct m as [p|p t dat|p|t]; cbn [metadata_ok] in W; [| | |destruct W]; (eapply G; [reflexivity|..|reflexivity]).
  1,4,7: split; [cbn [map fst]; repeat split|repeat split].
  1,3,5: cbn; lia.
  - exists 0, p, None. conjs; auto; split; auto; reflexivity.
  - exists 1, p, (Some t). conjs; auto; split; auto; try apply W; reflexivity.
  - exists 2, p, None. conjs; auto; split; auto; reflexivity.
Qed.

(** ** Registry *)
Inductive registered : registry -> Prop :=
| registered_new : registered reg_new
| registered_add r e c r' : registered r -> c < 256 -> reg_register r e c = Ok r' -> registered r'.

Definition inverse_maps (r : registry) : Prop :=
  (forall e c, reg_get_message_id r e = Some c <-> reg_for_message_id r c = Some e) /\
  (forall e c, reg_get_message_id r e = Some c -> 0 < c < 256).

Lemma ext_eqb_refl e : ext_eqb e e = true.
Proof. now destruct e. Qed.
Lemma ext_eqb_spec a b : reflect (a = b) (ext_eqb a b).
Proof. destruct a, b; constructor; auto. Qed.

Lemma register_spec r e c r' : reg_register r e c = Ok r' ->
  c <> 0 /\ reg_for_message_id r c = None /\ reg_get_message_id r e = None /\
  (forall e', reg_get_message_id r' e' = if ext_eqb e' e then Some c else reg_get_message_id r e') /\
  (forall c', reg_for_message_id r' c' = if c' =? c then Some e else reg_for_message_id r c').
Proof.
  unfold reg_register. destruct (N.eqb_spec c 0); [discriminate|].
  destruct (reg_for_message_id r c) eqn:E1; [discriminate|]. destruct (reg_get_message_id r e) eqn:E2; [discriminate|].
  intros H. apply Ok_inj in H. subst r'. auto.
Qed.

Lemma registered_inverse r : registered r -> inverse_maps r.
Proof.
  induction 1 as [|r e c r' _ [IH1 IH2] HC H].
  - split; [split; discriminate|discriminate].
  - apply register_spec in H as (NZ & F1 & F2 & G1 & G2). split.
    + intros e' c'. rewrite G1, G2. destruct (ext_eqb_spec e' e) as [->|NE], (N.eqb_spec c' c) as [->|NC]; try tauto.
      * split; [congruence|]. intros H. apply IH1 in H. congruence.
      * split; [|congruence]. intros H. apply IH1 in H. congruence.
      * apply IH1.
    + intros e' c'. rewrite G1. destruct (ext_eqb_spec e' e) as [->|NE]; [|apply IH2]. intros [= <-]. lia.
Qed.

Lemma from_m_go_spec m : forall r, registered r -> Forall (fun kc => snd kc < 256) m -> NoDup (map fst m) ->
  (forall e, In (ext_name e) (map fst m) -> reg_get_message_id r e = None) ->
  match reg_from_m_go m r with
  | Ok r' => registered r' /\
      (forall e c, reg_get_message_id r' e = Some c <-> reg_get_message_id r e = Some c \/ In (ext_name e, c) m) /\
      (forall e, ~ In (ext_name e, 0) m)
  | Err _ => (exists e, In (ext_name e, 0) m) \/ (exists e c e', In (ext_name e, c) m /\ e' <> e)
  end.
Proof.
  induction m as [|[k v] m IH]; intros r HR HC ND HN.
  - cbn. split; auto. split; [tauto|auto].
  - cbn [reg_from_m_go]. inversion HC as [|? ? C1 C2]; subst. cbn [map fst snd] in *. inversion ND as [|? ? NI ND']; subst.
    destruct (ext_of_name k) as [x|] eqn:EX.
    + assert (EK : k = ext_name x).
      { unfold ext_of_name in EX. destruct (bytes_eqb_spec k (bs "ut_metadata")); [|discriminate]. destruct x. auto. }
      destruct (reg_register r x v) as [r1|err] eqn:ER; cbn [res_bind].
      * pose proof (register_spec _ _ _ _ ER) as (NZ & F1 & F2 & G1 & G2).
        specialize (IH r1 (registered_add _ _ _ _ HR C1 ER) C2 ND').
        assert (HN1 : forall e, In (ext_name e) (map fst m) -> reg_get_message_id r1 e = None).
        { intros e HI. rewrite G1. destruct (ext_eqb_spec e x) as [->|]; [congruence|]. apply HN. right. exact HI. }
        specialize (IH HN1). destruct (reg_from_m_go m r1) as [r2|].
        -- destruct IH as (I1 & I2 & I3). split; auto. split.
           ++ intros e c. rewrite I2, G1. destruct (ext_eqb_spec e x) as [->|NE].
              ** rewrite F2. subst k. split; [intros [[= <-]|H]; [right; left; reflexivity|right; right; exact H]|].
                 intros [[=]|[[= <-]|H]]; auto.
              ** split; [intros [H|H]; [auto|right; right; exact H]|intros [H|[H|H]]; auto]. now destruct e, x.
           ++ intros e [H|H]; [congruence|now apply (I3 e)].
        -- destruct IH as [[e0 H]|(e0 & c & e0' & H & N)]; [left; exists e0; right; auto|right; exists e0, c, e0'; split; [right|]; auto].
      * (* the only possible failure is id 0 *)
        left. exists x. left. subst k. f_equal. unfold reg_register in ER.
        destruct (N.eqb_spec v 0); auto. exfalso.
        pose proof (HN x ltac:(left; auto)) as G. rewrite G in ER.
        destruct (reg_for_message_id r v) as [e'|] eqn:EF; [|discriminate].
        apply registered_inverse in HR as [HI _]. apply HI in EF. destruct x, e'. congruence.
    + assert (NK : forall e, k <> ext_name e).
      { intros e ->. destruct e. cbn in EX. discriminate. }
      specialize (IH r HR C2 ND' ltac:(intros; apply HN; right; auto)).
      destruct (reg_from_m_go m r) as [r2|].
      * destruct IH as (I1 & I2 & I3). split; auto. split.
        -- intros e c. rewrite I2. split; [intros [H|H]; auto; right; right; exact H|].
           intros [H|[H|H]]; auto. injection H as H _. now destruct (NK e).
        -- intros e [H|H]; [|now apply (I3 e)]. injection H as H _. now destruct (NK e).
      * destruct IH as [[e0 H]|(e0 & c & e0' & H & N)]; [left; exists e0; right; auto|right; exists e0, c, e0'; split; [right|]; auto].
Qed.

Lemma from_m_spec m : Forall (fun kc => snd kc < 256) m -> NoDup (map fst m) ->
  match reg_from_m m with
  | Ok r => registered r /\ inverse_maps r /\
      (forall e c, reg_get_message_id r e = Some c <-> In (ext_name e, c) m)
  | Err _ => exists e, In (ext_name e, 0) m
  end.
Proof.
  intros HC ND. unfold reg_from_m.
  pose proof (from_m_go_spec m reg_new registered_new HC ND ltac:(reflexivity)) as H.
  destruct (reg_from_m_go m reg_new) as [r|].
  - destruct H as (H1 & H2 & _). split; auto. split; [now apply registered_inverse|].
    intros e c. rewrite H2. split; [intros [[=]|H]; auto|auto].
  - destruct H as [H|(e0 & c & e0' & _ & N)]; auto. destruct e0, e0'. congruence.
Qed.

Lemma from_m_unknown m1 k v m2 : (forall e, k <> ext_name e) -> reg_from_m (m1 ++ (k, v) :: m2) = reg_from_m (m1 ++ m2).
Proof.
  intros NK. assert (EX : ext_of_name k = None).
  { unfold ext_of_name. destruct (bytes_eqb_spec k (bs "ut_metadata")) as [->|]; auto. now destruct (NK Metadata). }
  unfold reg_from_m. generalize reg_new. induction m1 as [|[k1 v1] m1 IH]; intros r; cbn [app reg_from_m_go].
  - now rewrite EX.
  - destruct (ext_of_name k1); [|apply IH]. destruct (reg_register r b v1); cbn [res_bind]; auto.
Qed.

Lemma from_m_zero m e : Forall (fun kc => snd kc < 256) m -> NoDup (map fst m) -> In (ext_name e, 0) m -> is_ok (reg_from_m m) = false.
Proof.
  intros HC ND HI. pose proof (from_m_spec m HC ND) as H. destruct (reg_from_m m) as [r|]; [|reflexivity].
  destruct H as (_ & [_ B] & H). apply H, B in HI. lia.
Qed.

(** ** Whole messages *)
Definition message_ok (m : message) : Prop :=
  match m with
  | Core (Extended _ _) => False (* only built by the two cases below *)
  | Core m => core_ok m
  | ExtHandshake h => ext_handshake_ok h
  | Meta m => metadata_ok m
  end.

Lemma extended_ok id p : id < 256 -> core_ok (Extended id p).
Proof. intros. cbn. repeat constructor. exact H. Qed.

Lemma message_roundtrip r m : registered r -> message_ok m ->
  (exists s, msg_encode m r = Ret (Ok s) /\ msg_decode s r = Ok m) \/
  (msg_encode m r = Ret (Err tt) /\ (exists x, m = Meta x) /\ forall c, reg_get_message_id r Metadata <> Some c).
Proof.
  intros HR W. apply registered_inverse in HR as [HI HB]. destruct m as [m|h|mm]; cbn [message_ok] in W; cbn [msg_encode].
  - left. eexists. split; [reflexivity|]. unfold msg_decode.
    rewrite core_decode_complete by (destruct m; auto; destruct W). cbn [res_bind]. destruct m; auto. destruct W.
  - left. destruct (eh_roundtrip h W) as (s & E & D). rewrite E. eexists. split; [reflexivity|].
    unfold msg_decode. rewrite core_decode_complete by (apply extended_ok; lia). cbn [res_bind]. cbn [N.eqb]. now rewrite D.
  - destruct (reg_get_message_id r Metadata) as [id|] eqn:EI.
    + left. destruct (mm_roundtrip mm W) as (s & E & D). rewrite E. eexists. split; [reflexivity|].
      pose proof (HB _ _ EI). unfold msg_decode. rewrite core_decode_complete by (apply extended_ok; lia). cbn [res_bind].
      destruct (N.eqb_spec id 0); [lia|]. apply HI in EI. rewrite EI, D. reflexivity.
    + right. split; auto. split; [eauto|congruence].
Qed.

Lemma core_roundtrip_raw m : core_ok m -> core_decode (core_encode m) = Ok m.
Proof. apply core_decode_complete. Qed.
