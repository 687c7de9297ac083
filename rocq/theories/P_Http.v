(** Lemmas for C37, C38, C82: HTTP trackers. *)
From Verif Require Import Base BaseFacts S_Bencode M_Bencode P_Bencode S_Utf8 M_Utf8 P_Utf8 M_Net M_IpText M_Types M_Compact
  M_Extensions M_Messages S_Wire P_Wire P_PeerWire P_ExtWire M_Tracker M_Udp M_Form S_Form P_Form M_Http S_IpText P_IpGrammar S_Http.

(** ** URLs *)
Lemma opt_append_parse q kv : form_parse (query_text (opt_append q kv)) =
  form_parse (query_text q) ++ match kv with Some x => [x] | None => [] end.
Proof. destruct kv as [[k v]|]; cbn [opt_append]; [apply append_pair_parse|now rewrite app_nil_r]. Qed.

Lemma announce_query_parse q a : form_parse (query_text (announce_query q a)) = form_parse (query_text q) ++ announced a.
Proof.
  unfold announce_query. rewrite !append_pair_parse, opt_append_parse.
  rewrite !add_bytes_eq by (intros E; discriminate E). rewrite !append_pair_parse, opt_append_parse.
  rewrite <- !app_assoc. f_equal. unfold announced.
  destruct (an_event a), (an_crypto a); reflexivity.
Qed.

Lemma announce_query_some q a : exists r, announce_query q a = Some r.
Proof. unfold announce_query, append_pair. eexists. reflexivity. Qed.
Lemma announce_query_prefix q a : exists r, announce_query q a = Some (query_text q ++ r).
Proof.
  assert (A : forall q k v, exists r, append_pair q k v = Some (query_text q ++ r)) by (intros; apply append_pair_keeps).
  assert (O : forall q kv, exists r, query_text (opt_append q kv) = query_text q ++ r).
  { intros q0 [[k v]|]; cbn [opt_append]; [|exists []; now rewrite app_nil_r]. destruct (A q0 k v) as [r ->]. exists r. reflexivity. }
  assert (A' : forall q k v, exists r, query_text (append_pair q k v) = query_text q ++ r).
  { intros q0 k v. destruct (A q0 k v) as [r ->]. exists r. reflexivity. }
  unfold announce_query. rewrite !add_bytes_eq by (intros E; discriminate E).
  match goal with |- exists r, append_pair ?q ?k ?v = _ => destruct (A q k v) as [r E]; rewrite E; clear E; revert r; generalize v; generalize k end.
  intros _ _ r.
  repeat match goal with
  | |- exists _, Some (query_text (append_pair ?q ?k ?v) ++ _) = _ => let x := fresh "x" in destruct (A' q k v) as [x ->]; rewrite <- app_assoc
  | |- exists _, Some (query_text (opt_append ?q ?kv) ++ _) = _ => let x := fresh "x" in destruct (O q kv) as [x ->]; rewrite <- app_assoc
  end.
  eexists. reflexivity.
Qed.

(** ** Peers *)
Lemma as_bytes_iff v s : as_bytes v = Some s <-> byte_string v s.
Proof. unfold byte_string. destruct v; cbn; split; congruence. Qed.

Lemma peer_id_iff v s : (leto b := as_bytes v in peer_id_of_slice b) = Some s <-> id20 v s.
Proof.
  unfold id20, peer_id_of_slice. rewrite obind_some. split.
  - intros (b & H1 & H2). apply as_bytes_iff in H1. destruct (Nat.eqb_spec (length b) 20); [|discriminate].
    injection H2 as <-. auto.
  - intros [-> L]. exists s. cbn [as_bytes]. rewrite L. auto.
Qed.
Lemma ip_text_iff v i : (leto s := as_string v in parse_ip s) = Some i <-> ip_text v i.
Proof.
  unfold ip_text. rewrite obind_some. split; intros (s & H1 & H2); exists s; (split; [now apply as_string_iff|now apply parse_ip_grammar]).
Qed.

Lemma peer_fields_iff d : NoDup (map fst d) -> forall a0 b0 c0 a b c,
  peer_fields d (a0, b0, c0) = Some (a, b, c) <->
  field_or id20 (bs "peer id") d a0 a /\ field_or ip_text (bs "ip") d b0 b /\ field_or (uint 16) (bs "port") d c0 c.
Proof.
  induction d as [|[k v] d IH]; intros ND a0 b0 c0 a b c.
  - unfold field_or. cbn [lookup peer_fields]. split; [intros [= -> -> ->]; auto|intros (-> & -> & ->); auto].
  - cbn [map fst] in ND. inversion ND as [|? ? NI ND']; subst. specialize (IH ND'). cbn [peer_fields].
    destruct (bytes_eqb_spec k (bs "peer id")) as [->|N1].
    { rewrite field_or_take by auto. rewrite !field_or_skip by keyneq.
      rewrite <- (obind_assoc (as_bytes v)), obind_some. split.
      - intros (n & H1 & H2). apply peer_id_iff in H1. apply IH in H2 as (? & ? & ?). conjs; eauto.
      - intros ((n & H1 & H2) & H3). exists n. split; [now apply peer_id_iff|]. apply IH. tauto. }
    destruct (bytes_eqb_spec k (bs "ip")) as [->|N2].
    { rewrite field_or_take by auto. rewrite !field_or_skip by keyneq.
      rewrite <- (obind_assoc (as_string v)), obind_some. split.
      - intros (n & H1 & H2). apply ip_text_iff in H1. apply IH in H2 as (? & ? & ?). conjs; eauto.
      - intros (H0 & (n & H1 & H2) & H3). exists n. split; [now apply ip_text_iff|]. apply IH. tauto. }
    destruct (bytes_eqb_spec k (bs "port")) as [->|N3].
    { rewrite field_or_take by auto. rewrite !field_or_skip by keyneq. rewrite obind_some. split.
      - intros (n & H1 & H2). apply as_uint_iff in H1. apply IH in H2 as (? & ? & ?). conjs; eauto.
      - intros (H0 & H3 & (n & H1 & H2)). exists n. split; [now apply as_uint_iff|]. apply IH. tauto. }
    rewrite IH. rewrite !field_or_skip by congruence. tauto.
Qed.

Lemma peer_decode_iff v p : canonical v -> (peer_decode v = Some p <-> peer_dict v p).
Proof.
  intros C. unfold peer_decode, peer_dict. rewrite obind_some. split.
  - intros (d & H1 & H2). destruct v; cbn in H1; try discriminate. injection H1 as ->. exists d. split; auto.
    apply obind_some in H2 as ([[pid i] port] & H2 & H3). apply obind_some in H3 as (i' & -> & H3).
    apply obind_some in H3 as (port' & -> & H3). injection H3 as <-. cbn [pr_id pr_addr sa_ip sa_port pr_crypto].
    apply peer_fields_iff in H2; [|apply ascending_nodup; apply C]. rewrite !field_or_none in H2. tauto.
  - intros (d & -> & F1 & F2 & F3 & E). exists d. split; auto.
    rewrite (proj2 (peer_fields_iff d (ascending_nodup _ (proj1 C)) None None None (pr_id p) (Some (sa_ip (pr_addr p))) (Some (sa_port (pr_addr p))))).
    + cbn [obind]. destruct p as [[i q] pid c]; cbn [pr_id pr_addr sa_ip sa_port pr_crypto] in *. subst c. reflexivity.
    + rewrite !field_or_none. auto.
Qed.

Lemma peers_decode_iff l ps : Forall canonical l -> (peers_decode l = Some ps <-> Forall2 peer_dict l ps).
Proof.
  intros C. revert ps. induction C as [|v l CV CL IH]; intros ps; cbn [peers_decode].
  - split; [intros [= <-]; constructor|intros H; inversion H; auto].
  - rewrite obind_some. split.
    + intros (p & H1 & H2). apply obind_some in H2 as (ps' & H2 & H3). injection H3 as <-.
      constructor; [now apply peer_decode_iff|now apply IH].
    + intros H. inversion H as [|? p ? ps' H1 H2]; subst. exists p. split; [now apply peer_decode_iff|].
      apply IH in H2. now rewrite H2.
Qed.

Lemma compact_parts (Q : sockaddr -> Prop) s ps :
  (exists l, (Forall (fun a => wf_sa a /\ Q a) l /\ s = concat (map to_compact l)) /\ ps = map peer_of l) <->
  (exists parts, s = concat parts /\
    Forall2 (fun w p => compact (pr_addr p) w /\ pr_id p = None /\ pr_crypto p = false /\ Q (pr_addr p)) parts ps).
Proof.
  split.
  - intros (l & [F ->] & ->). exists (map to_compact l). split; auto.
    induction F as [|a l [W H] _ IH]; [constructor|]. cbn [map]. constructor; [|exact IH].
    cbn [peer_of pr_addr pr_id pr_crypto]. auto using to_compact_spec.
  - intros (parts & -> & F). exists (map pr_addr ps). split.
    + induction F as [|w p parts ps (C & H1 & H2 & H) _ IH]; [split; [constructor|reflexivity]|]. cbn [map concat]. destruct IH as [IH1 IH2]. split.
      * constructor; auto. split; auto. exact (compact_wf _ _ C).
      * now rewrite IH2, (compact_unique _ _ C).
    + rewrite map_map. induction F as [|w p parts ps (C & H1 & H2 & H) _ IH]; [auto|]. cbn [map]. rewrite <- IH. f_equal.
      destruct p as [a i c]; cbn in *; now subst.
Qed.

Lemma compact4_iff v ps :
  (leto s := as_bytes v in leto l := res_ok (vec_v4_from_compact s) in Some (map peer_of l)) = Some ps <-> compact_peers false v ps.
Proof.
  rewrite obind_some. transitivity (exists s, v = VBytes s /\ exists l, (Forall (fun a => wf_sa a /\ is_v4 a) l /\ s = concat (map to_compact l)) /\ ps = map peer_of l).
  - split.
    + intros (s & H1 & H2). apply as_bytes_iff in H1. exists s. split; auto. apply obind_some in H2 as (l & H2 & H3).
      exists l. split; [|congruence]. apply vec_v4. destruct (vec_v4_from_compact s); cbn in H2; congruence.
    + intros (s & -> & l & H & ->). exists s. split; auto. apply vec_v4 in H. now rewrite H.
  - unfold compact_peers. split.
    + intros (s & -> & H). apply compact_parts in H as (parts & -> & H). eauto.
    + intros (parts & -> & H). exists (concat parts). split; auto. apply compact_parts. eauto.
Qed.
Lemma compact6_iff v ps :
  (exists l, (leto s := as_bytes v in res_ok (vec_v6_from_compact s)) = Some l /\ ps = map peer_of l) <-> compact_peers true v ps.
Proof.
  transitivity (exists s, v = VBytes s /\ exists l, (Forall (fun a => wf_sa a /\ ~ is_v4 a) l /\ s = concat (map to_compact l)) /\ ps = map peer_of l).
  - split.
    + intros (l & H1 & H2). apply obind_some in H1 as (s & H0 & H1). apply as_bytes_iff in H0. exists s. split; auto.
      exists l. split; [|congruence]. apply vec_v6. destruct (vec_v6_from_compact s); cbn in H1; congruence.
    + intros (s & -> & l & H & ->). exists l. split; auto. cbn [as_bytes obind]. apply vec_v6 in H. now rewrite H.
  - unfold compact_peers. split.
    + intros (s & -> & H). apply (compact_parts (fun a => ~ is_v4 a)) in H as (parts & -> & H). eauto.
    + intros (parts & -> & H). exists (concat parts). split; auto. apply (compact_parts (fun a => ~ is_v4 a)). eauto.
Qed.

Lemma decode_peers_iff v ps : canonical v -> (decode_peers v = Some ps <-> peer_list v ps).
Proof.
  intros C. unfold decode_peers, peer_list. destruct v as [z|s|l|d].
  1,2,4: rewrite compact4_iff; split; [auto|intros [(vs & E & _)|H]; [discriminate E|auto]].
  rewrite peers_decode_iff by (apply (fold_and_Forall canonical); exact C). split.
  - intros H. left. eauto.
  - intros [(vs & [= <-] & H)|(parts & E & _)]; [auto|discriminate E].
Qed.

Definition mark (fl : option (list bool)) (ps : list peer) : list peer :=
  match fl with Some fl => apply_flags ps fl | None => ps end.
Definition flag_bits (s : bytes) : list bool := map (fun b => negb (b2n b =? 0)) s.

Lemma b2n_zero b : b2n b = 0 <-> b = x00.
Proof. split; [|intros ->; reflexivity]. intros H. apply b2n_inj. exact H. Qed.

Lemma apply_flags_flagged s ps : Forall (fun p => pr_crypto p = false) ps ->
  flagged (Some s) ps (apply_flags ps (flag_bits s)).
Proof.
  intros F. revert s. induction F as [|p ps HP F IH]; intros s.
  - split; [reflexivity|]. intros [|i] p; discriminate.
  - destruct s as [|b s]; cbn [flag_bits map apply_flags].
    + split; [auto|]. intros i q H. exists false. split.
      * rewrite H. f_equal. assert (Q : pr_crypto q = false).
        { apply nth_error_In in H. assert (FF := Forall_cons p HP F). rewrite Forall_forall in FF. auto. }
        destruct q; cbn in *; congruence.
      * split; [discriminate|]. intros (s' & b & [= <-] & H' & _). destruct i; discriminate.
    + destruct (IH s) as [L N]. split; [cbn [length]; f_equal; exact L|]. intros [|i] q H.
      * cbn in H. injection H as <-. exists (negb (b2n b =? 0)). split.
        { cbn. f_equal. destruct (N.eqb_spec (b2n b) 0); cbn; [|reflexivity]. destruct p; cbn in *; congruence. }
        destruct (N.eqb_spec (b2n b) 0) as [E|E]; cbn [negb]; split.
        -- discriminate.
        -- apply b2n_zero in E. intros (s' & b' & [= <-] & [= <-] & NE). congruence.
        -- intros _. exists (b :: s), b. split; [auto|]. split; [auto|]. rewrite <- b2n_zero. auto.
        -- auto.
      * cbn in H. destruct (N i q H) as (c & H1 & H2). exists c. split; [exact H1|]. rewrite H2. split.
        -- intros (s' & b' & [= <-] & H3 & H4). exists (b :: s), b'. auto.
        -- intros (s' & b' & [= <-] & H3 & H4). exists s, b'. auto.
Qed.
Lemma mark_flagged fo ps : Forall (fun p => pr_crypto p = false) ps ->
  flagged fo ps (mark (option_map flag_bits fo) ps).
Proof.
  intros F. destruct fo as [s|]; cbn [option_map mark]; [now apply apply_flags_flagged|].
  split; [auto|]. intros i p H. exists false. split.
  - rewrite H. f_equal. rewrite Forall_forall in F. apply nth_error_In in H. apply F in H. destruct p; cbn in *; congruence.
  - split; [discriminate|]. intros (s & b & E & _). discriminate E.
Qed.
Lemma flagged_fun fo ps o o' : flagged fo ps o -> flagged fo ps o' -> o = o'.
Proof.
  intros [L1 H1] [L2 H2]. apply nth_ext with (d := peer_of (mkSA (V4 0) 0)) (d' := peer_of (mkSA (V4 0) 0)); [congruence|].
  intros n L. destruct (nth_error ps n) as [p|] eqn:E.
  - destruct (H1 n p E) as (c & E1 & I1), (H2 n p E) as (c' & E2 & I2).
    rewrite (nth_error_nth _ _ _ E1), (nth_error_nth _ _ _ E2).
    assert (c = c') as ->; [|reflexivity]. destruct c, c'; auto; [symmetry; apply I2, I1; auto|apply I1, I2; auto].
  - apply nth_error_None in E. lia.
Qed.

Lemma peer_list_plain v ps : peer_list v ps -> Forall (fun p => pr_crypto p = false) ps.
Proof.
  intros [(vs & _ & F)|(parts & _ & F)]; clear v; induction F as [|a p l ps H _ IH]; constructor; auto.
  - destruct H as (d & _ & _ & _ & _ & H). exact H.
  - tauto.
Qed.

(** ** The fields *)
Definition hstep (k : bytes) (v : value) (h : http_acc) : outcome (option http_acc) :=
  if bytes_eqb k (bs "interval") then
    Ret (leto x := as_uint 32 v in Some (mkHA (Some x) (ha_peers h) (ha_warning h) (ha_min h) (ha_tracker_id h) (ha_complete h) (ha_incomplete h) (ha_flags h)))
  else if bytes_eqb k (bs "crypto_flags") then
    Ret (leto s := as_bytes v in Some (mkHA (ha_interval h) (ha_peers h) (ha_warning h) (ha_min h) (ha_tracker_id h) (ha_complete h) (ha_incomplete h) (Some (flag_bits s))))
  else if bytes_eqb k (bs "peers") then
    match ha_peers h with
    | _ :: _ => Panic
    | [] => Ret (leto ps := decode_peers v in Some (mkHA (ha_interval h) (mark (ha_flags h) ps) (ha_warning h) (ha_min h) (ha_tracker_id h) (ha_complete h) (ha_incomplete h) (ha_flags h)))
    end
  else if bytes_eqb k (bs "peers6") then
    Ret (leto l := (leto s := as_bytes v in res_ok (vec_v6_from_compact s)) in Some (mkHA (ha_interval h) (ha_peers h ++ map peer_of l) (ha_warning h) (ha_min h) (ha_tracker_id h) (ha_complete h) (ha_incomplete h) (ha_flags h)))
  else if bytes_eqb k (bs "warning message") then
    Ret (leto s := as_bytes v in Some (mkHA (ha_interval h) (ha_peers h) (Some (from_utf8_lossy s)) (ha_min h) (ha_tracker_id h) (ha_complete h) (ha_incomplete h) (ha_flags h)))
  else if bytes_eqb k (bs "min interval") then
    Ret (leto x := as_uint 32 v in Some (mkHA (ha_interval h) (ha_peers h) (ha_warning h) (Some x) (ha_tracker_id h) (ha_complete h) (ha_incomplete h) (ha_flags h)))
  else if bytes_eqb k (bs "tracker id") then
    Ret (leto s := as_bytes v in Some (mkHA (ha_interval h) (ha_peers h) (ha_warning h) (ha_min h) (Some s) (ha_complete h) (ha_incomplete h) (ha_flags h)))
  else if bytes_eqb k (bs "complete") then
    Ret (leto x := as_uint 32 v in Some (mkHA (ha_interval h) (ha_peers h) (ha_warning h) (ha_min h) (ha_tracker_id h) (Some x) (ha_incomplete h) (ha_flags h)))
  else if bytes_eqb k (bs "incomplete") then
    Ret (leto x := as_uint 32 v in Some (mkHA (ha_interval h) (ha_peers h) (ha_warning h) (ha_min h) (ha_tracker_id h) (ha_complete h) (Some x) (ha_flags h)))
  else Ret (Some h).

Fixpoint hfold (d : list (bytes * value)) (h : http_acc) : outcome (option http_acc) :=
  match d with
  | [] => Ret (Some h)
  | (k, v) :: r => match hstep k v h with Panic => Panic | Ret None => Ret None | Ret (Some h') => hfold r h' end
  end.

Lemma http_fields_app d1 : forall d2 h, ~ In (bs "failure reason") (map fst d1) ->
  http_fields (d1 ++ d2) h = match hfold d1 h with Panic => Panic | Ret None => Ret None | Ret (Some h') => http_fields d2 h' end.
Proof.
  induction d1 as [|[k v] d1 IH]; intros d2 h N; [reflexivity|].
  cbn [map fst] in N. cbn [app http_fields hfold].
  assert (N1 : k <> bs "failure reason") by (intros ->; apply N; left; auto).
  assert (N2 : ~ In (bs "failure reason") (map fst d1)) by (intros X; apply N; right; auto).
  specialize (fun h => IH d2 h N2). unfold hstep.
  destruct (bytes_eqb_spec k (bs "failure reason")); [congruence|].
  destruct (bytes_eqb k (bs "interval")); [destruct (as_uint 32 v); cbn [obind]; auto|].
  destruct (bytes_eqb k (bs "crypto_flags")); [destruct (as_bytes v); cbn [obind]; auto|].
  destruct (bytes_eqb k (bs "peers")).
  { destruct (ha_peers h); [|reflexivity]. destruct (decode_peers v); cbn [obind]; auto. }
  destruct (bytes_eqb k (bs "peers6")).
  { destruct (leto s := as_bytes v in res_ok (vec_v6_from_compact s)); cbn [obind]; auto. }
  destruct (bytes_eqb k (bs "warning message")); [destruct (as_bytes v); cbn [obind]; auto|].
  destruct (bytes_eqb k (bs "min interval")); [destruct (as_uint 32 v); cbn [obind]; auto|].
  destruct (bytes_eqb k (bs "tracker id")); [destruct (as_bytes v); cbn [obind]; auto|].
  destruct (bytes_eqb k (bs "complete")); [destruct (as_uint 32 v); cbn [obind]; auto|].
  destruct (bytes_eqb k (bs "incomplete")); [destruct (as_uint 32 v); cbn [obind]; auto|].
  auto.
Qed.

Definition bits_of (v : value) (fl : list bool) : Prop := exists s, byte_string v s /\ fl = flag_bits s.
Definition acc_or (d : list (bytes * value)) (h h' : http_acc) : Prop :=
  field_or (uint 32) (bs "interval") d (ha_interval h) (ha_interval h') /\
  field_or message (bs "warning message") d (ha_warning h) (ha_warning h') /\
  field_or (uint 32) (bs "min interval") d (ha_min h) (ha_min h') /\
  field_or byte_string (bs "tracker id") d (ha_tracker_id h) (ha_tracker_id h') /\
  field_or (uint 32) (bs "complete") d (ha_complete h) (ha_complete h') /\
  field_or (uint 32) (bs "incomplete") d (ha_incomplete h) (ha_incomplete h') /\
  field_or bits_of (bs "crypto_flags") d (ha_flags h) (ha_flags h') /\
  exists p4 p6, field peer_list (bs "peers") d p4 /\ field (compact_peers true) (bs "peers6") d p6 /\
    ha_peers h' = ha_peers h ++ mark (ha_flags h') (of_option p4) ++ of_option p6.

Lemma field_skip {A} (R : value -> A -> Prop) k k' v d o : k <> k' -> (field R k ((k', v) :: d) o <-> field R k d o).
Proof. intros. unfold field. now rewrite lookup_cons_ne. Qed.
Lemma field_none {A} (R : value -> A -> Prop) k d o : lookup k d = None -> (field R k d o <-> o = None).
Proof. intros E. unfold field. rewrite E. destruct o; split; congruence || tauto. Qed.
Lemma field_take {A} (R : value -> A -> Prop) k v d o : (field R k ((k, v) :: d) o <-> exists a, o = Some a /\ R v a).
Proof.
  unfold field. rewrite lookup_cons_eq. destruct o; split; try tauto; try discriminate; eauto.
  - intros (x & [= <-] & H). auto.
  - intros (x & E & _). discriminate E.
Qed.
Lemma field_or_absent {A} (R : value -> A -> Prop) k d o o' : ~ In k (map fst d) -> (field_or R k d o o' <-> o' = o).
Proof. intros N. unfold field_or. now rewrite lookup_none. Qed.
Lemma message_iff v s : (exists b, as_bytes v = Some b /\ s = from_utf8_lossy b) <-> message v s.
Proof. unfold message. split; intros (b & H & ->); exists b; split; auto; now apply as_bytes_iff. Qed.

Ltac ha := cbn [ha_interval ha_peers ha_warning ha_min ha_tracker_id ha_complete ha_incomplete ha_flags].
Ltac skips := rewrite ?field_or_skip by keyneq; rewrite ?field_skip by keyneq.
Ltac splitIH := let H := fresh in intros H;
  repeat match goal with
  | X : exists _, _ |- _ => destruct X
  | X : _ /\ _ |- _ => destruct X
  end.

Lemma canonical_entry k v d : canonical (VDict ((k, v) :: d)) -> canonical v /\ canonical (VDict d).
Proof.
  intros [A F]. cbn [fold_right snd] in F. destruct F as [F1 F2]. split; auto. split; auto.
  cbn [map fst] in A. apply ascending_cons in A. tauto.
Qed.

Lemma hfold_iff d : canonical (VDict d) -> forall h, (ha_peers h <> [] -> ~ In (bs "peers") (map fst d)) ->
  hfold d h <> Panic /\ forall h', hfold d h = Ret (Some h') <-> acc_or d h h'.
Proof.
  induction d as [|[k v] d IH]; intros C h HP.
  - split; [discriminate|]. intros h'. cbn [hfold]. unfold acc_or, field_or, field. cbn [lookup]. split.
    + intros [= <-]. conjs; auto. exists None, None. conjs; auto. destruct (ha_flags h) as [[|]|]; cbn; now rewrite !app_nil_r.
    + intros (E1 & E2 & E3 & E4 & E5 & E6 & E7 & p4 & p6 & F4 & F6 & E8).
      destruct p4; [destruct F4|]. destruct p6; [destruct F6|]. cbn [of_option] in E8.
      assert (mark (ha_flags h') [] = []) as M by (destruct (ha_flags h') as [[|]|]; reflexivity).
      rewrite M in E8. cbn [app] in E8. rewrite app_nil_r in E8. destruct h, h'; cbn in *. congruence.
  - destruct (canonical_entry _ _ _ C) as [CV CD]. pose proof (ascending_nodup _ (proj1 C)) as ND.
    pose proof (ascending_lt_all k (map fst d) (proj1 C)) as LT. rewrite Forall_forall in LT.
    cbn [map fst] in ND, HP. inversion ND as [|? ? NI ND']; subst. clear ND ND'.
    specialize (IH CD).
    assert (HP' : ha_peers h <> [] -> ~ In (bs "peers") (map fst d)) by (intros X Y; apply (HP X); right; auto).
    cbn [hfold]. unfold hstep.
    (* a field that leaves the peers alone *)
    assert (G : forall A (conv : option A) (set : A -> http_acc),
      (forall a, ha_peers (set a) = ha_peers h) ->
      (forall h', acc_or ((k, v) :: d) h h' <-> exists a, conv = Some a /\ acc_or d (set a) h') ->
      match Ret (leto x := conv in Some (set x)) with Panic => Panic | Ret None => Ret None | Ret (Some h') => hfold d h' end <> Panic /\
      forall h', match Ret (leto x := conv in Some (set x)) with Panic => Panic | Ret None => Ret None | Ret (Some h') => hfold d h' end = Ret (Some h') <-> acc_or ((k, v) :: d) h h').
    { intros A conv set K E. destruct conv as [a|]; cbn [obind].
      - destruct (IH (set a)) as [I1 I2]; [now rewrite K|]. split; auto. intros h'. rewrite I2, E. split; [eauto|].
        intros (b & [= <-] & H). exact H.
      - split; [discriminate|]. intros h'. rewrite E. split; [discriminate|]. intros (a & X & _). discriminate X. }
    destruct (bytes_eqb_spec k (bs "interval")) as [->|N1].
    { apply G; [reflexivity|]. intros h'. unfold acc_or. ha. rewrite field_or_take by auto. skips. 
      split.
      - intros ((a & R & F) & T). exists a. rewrite as_uint_iff. tauto.
      - intros (a & R & F & T). split; [|tauto]. exists a. rewrite <- as_uint_iff. auto. }
    destruct (bytes_eqb_spec k (bs "crypto_flags")) as [->|N2].
    { apply G; [reflexivity|]. intros h'. unfold acc_or. ha. rewrite field_or_take by auto. skips. 
      split.
      - intros (X1 & X2 & X3 & X4 & X5 & X6 & (a & (s & R & ->) & F) & T). exists s. rewrite as_bytes_iff. tauto.
      - intros (s & R & X1 & X2 & X3 & X4 & X5 & X6 & F & T). conjs; auto. exists (flag_bits s). split; auto. exists s.
        rewrite <- as_bytes_iff. auto. }
    destruct (bytes_eqb_spec k (bs "peers")) as [->|N3].
    { destruct (ha_peers h) as [|p0 ps0] eqn:EP; [|exfalso; apply HP; [discriminate|left; reflexivity]].
      assert (NP : ~ In (bs "crypto_flags") (map fst d)) by (intros X; apply LT in X; discriminate X).
      pose proof (lookup_none _ _ NI) as LN.
      assert (E : forall h', acc_or ((bs "peers", v) :: d) h h' <-> exists ps, decode_peers v = Some ps /\
        acc_or d (mkHA (ha_interval h) (mark (ha_flags h) ps) (ha_warning h) (ha_min h) (ha_tracker_id h) (ha_complete h) (ha_incomplete h) (ha_flags h)) h').
      { intros h'. unfold acc_or. ha. rewrite EP. skips.
        pose proof (fun R o o' => @field_or_absent (list bool) R (bs "crypto_flags") d o o' NP) as FA.
        cbn [app]. split.
        - intros (X1 & X2 & X3 & X4 & X5 & X6 & X7 & p4 & p6 & F4 & F6 & E). apply field_take in F4 as (ps & -> & R).
          rewrite field_skip in F6 by keyneq. apply FA in X7. exists ps. split; [now apply decode_peers_iff|]. do 6 (split; [auto|]). split; [now apply FA|]. exists None, p6.
          split; [now apply field_none|]. split; auto. rewrite E, X7. f_equal. cbn [of_option].
          destruct (ha_flags h) as [[|]|]; reflexivity.
        - intros (ps & R & X1 & X2 & X3 & X4 & X5 & X6 & X7 & p4 & p6 & F4 & F6 & E). apply field_none in F4; auto. subst p4.
          apply FA in X7. do 6 (split; [auto|]). split; [now apply FA|]. exists (Some ps), p6. split; [apply field_take; exists ps; split; auto; now apply decode_peers_iff|].
          rewrite field_skip by keyneq. split; auto. rewrite E, X7. f_equal. cbn [of_option].
          destruct (ha_flags h) as [[|]|]; reflexivity. }
      destruct (decode_peers v) as [ps|]; cbn [obind].
      - destruct (IH (mkHA (ha_interval h) (mark (ha_flags h) ps) (ha_warning h) (ha_min h) (ha_tracker_id h) (ha_complete h) (ha_incomplete h) (ha_flags h))) as [I1 I2]; [intros _; exact NI|].
        split; auto. intros h'. rewrite I2, E. split; [eauto|]. intros (b & [= <-] & H). exact H.
      - split; [discriminate|]. intros h'. rewrite E. split; [discriminate|]. intros (a & X & _). discriminate X. }
    destruct (bytes_eqb_spec k (bs "peers6")) as [->|N4].
    { assert (NP : ~ In (bs "peers") (map fst d)) by (intros X; apply LT in X; discriminate X).
      pose proof (lookup_none _ _ NI) as LN. pose proof (lookup_none _ _ NP) as LP.
      assert (E : forall h', acc_or ((bs "peers6", v) :: d) h h' <-> exists l, (leto s := as_bytes v in res_ok (vec_v6_from_compact s)) = Some l /\
        acc_or d (mkHA (ha_interval h) (ha_peers h ++ map peer_of l) (ha_warning h) (ha_min h) (ha_tracker_id h) (ha_complete h) (ha_incomplete h) (ha_flags h)) h').
      { intros h'. unfold acc_or. ha. skips.
        assert (MN : forall fl, mark fl [] = []) by (intros [[|]|]; reflexivity).
        split.
        - intros (X1 & X2 & X3 & X4 & X5 & X6 & X7 & p4 & p6 & F4 & F6 & E). apply field_take in F6 as (ps & -> & R).
          rewrite field_skip in F4 by keyneq. apply field_none in F4; auto. subst p4.
          apply compact6_iff in R as (l & R & ->). exists l. split; auto. conjs; auto. exists None, None.
          split; [now apply field_none|]. split; [now apply field_none|]. cbn [of_option] in *. rewrite MN in *.
          rewrite E. cbn [app]. now rewrite app_nil_r.
        - intros (l & R & X1 & X2 & X3 & X4 & X5 & X6 & X7 & p4 & p6 & F4 & F6 & E). apply field_none in F4, F6; auto. subst p4 p6.
          conjs; auto. exists None, (Some (map peer_of l)). rewrite field_skip by keyneq. split; [now apply field_none|].
          split; [apply field_take; eexists; split; [reflexivity|]; apply compact6_iff; eauto|].
          cbn [of_option] in *. rewrite MN in *. rewrite E. cbn [app]. now rewrite app_nil_r. }
      destruct (leto s := as_bytes v in res_ok (vec_v6_from_compact s)) as [ps|]; cbn [obind].
      - destruct (IH (mkHA (ha_interval h) (ha_peers h ++ map peer_of ps) (ha_warning h) (ha_min h) (ha_tracker_id h) (ha_complete h) (ha_incomplete h) (ha_flags h))) as [I1 I2]; [intros _; exact NP|].
        split; auto. intros h'. rewrite I2, E. split; [eauto|]. intros (b & [= <-] & H). exact H.
      - split; [discriminate|]. intros h'. rewrite E. split; [discriminate|]. intros (a & X & _). discriminate X. }
    destruct (bytes_eqb_spec k (bs "warning message")) as [->|N5].
    { apply G; [reflexivity|]. intros h'. unfold acc_or. ha. rewrite field_or_take by auto. skips. 
      split.
      - intros (X1 & (a & (s & R & ->) & F) & T). exists s. rewrite as_bytes_iff. tauto.
      - intros (s & R & X1 & F & T). split; auto. split; auto. exists (from_utf8_lossy s). split; auto.
        exists s. split; auto. now apply as_bytes_iff in R. }
    destruct (bytes_eqb_spec k (bs "min interval")) as [->|N6].
    { apply G; [reflexivity|]. intros h'. unfold acc_or. ha. rewrite field_or_take by auto. skips. 
      split.
      - intros (X1 & X2 & (a & R & F) & T). exists a. rewrite as_uint_iff. tauto.
      - intros (a & R & X1 & X2 & F & T). conjs; try tauto. exists a. rewrite <- as_uint_iff. auto. }
    destruct (bytes_eqb_spec k (bs "tracker id")) as [->|N7].
    { apply G; [reflexivity|]. intros h'. unfold acc_or. ha. rewrite field_or_take by auto. skips. 
      split.
      - intros (X1 & X2 & X3 & (a & R & F) & T). exists a. rewrite as_bytes_iff. tauto.
      - intros (a & R & X1 & X2 & X3 & F & T). conjs; try tauto. exists a. rewrite <- as_bytes_iff. auto. }
    destruct (bytes_eqb_spec k (bs "complete")) as [->|N8].
    { apply G; [reflexivity|]. intros h'. unfold acc_or. ha. rewrite field_or_take by auto. skips. 
      split.
      - intros (X1 & X2 & X3 & X4 & (a & R & F) & T). exists a. rewrite as_uint_iff. tauto.
      - intros (a & R & X1 & X2 & X3 & X4 & F & T). conjs; try tauto. exists a. rewrite <- as_uint_iff. auto. }
    destruct (bytes_eqb_spec k (bs "incomplete")) as [->|N9].
    { apply G; [reflexivity|]. intros h'. unfold acc_or. ha. rewrite field_or_take by auto. skips. 
      split.
      - intros (X1 & X2 & X3 & X4 & X5 & (a & R & F) & T). exists a. rewrite as_uint_iff. tauto.
      - intros (a & R & X1 & X2 & X3 & X4 & X5 & F & T). conjs; try tauto. exists a. rewrite <- as_uint_iff. auto. }
    destruct (IH h HP') as [I1 I2]. split; auto. intros h'. rewrite I2. unfold acc_or.
    rewrite !field_or_skip by congruence.
    split; intros (X1 & X2 & X3 & X4 & X5 & X6 & X7 & p4 & p6 & F4 & F6 & E); conjs; auto; exists p4, p6.
    + rewrite !field_skip by congruence. auto.
    + rewrite !field_skip in F4, F6 by congruence. auto.
Qed.

Lemma acc_success d h' i r : acc_or d ha_new h' -> ha_interval h' = Some i -> lookup (bs "failure reason") d = None ->
  r = mkResp i (ha_peers h') (ha_warning h') (ha_min h') (ha_tracker_id h') (ha_complete h') (ha_incomplete h') None None ->
  http_success d r.
Proof.
  unfold acc_or, ha_new. ha. rewrite !field_or_none. intros (X1 & X2 & X3 & X4 & X5 & X6 & X7 & p4 & p6 & F4 & F6 & E) EI LF ->.
  unfold http_success. cbn [ar_interval ar_peers ar_warning ar_min_interval ar_tracker_id ar_complete ar_incomplete ar_leechers ar_seeders].
  rewrite <- EI. split; auto. split; [|conjs; auto].
  cbn [app] in E.
  assert (exists fo, field byte_string (bs "crypto_flags") d fo /\ ha_flags h' = option_map flag_bits fo) as (fo & FF & EF).
  { unfold field in X7 |- *. destruct (lookup (bs "crypto_flags") d), (ha_flags h'); try tauto.
    - destruct X7 as (s & B & ->). exists (Some s). auto.
    - exists None. auto. }
  exists fo, p4, p6, (mark (ha_flags h') (of_option p4)). conjs; auto.
  rewrite EF. apply mark_flagged. unfold field in F4. destruct (lookup (bs "peers") d), p4; cbn [of_option]; try tauto.
  - eapply peer_list_plain; eauto.
  - constructor.
Qed.

Lemma success_acc d r : http_success d r -> exists h', acc_or d ha_new h' /\ ha_interval h' = Some (ar_interval r) /\
  r = mkResp (ar_interval r) (ha_peers h') (ha_warning h') (ha_min h') (ha_tracker_id h') (ha_complete h') (ha_incomplete h') None None.
Proof.
  intros (LF & (fo & p4 & p6 & out & FF & F4 & F6 & FL & E) & X1 & X2 & X3 & X4 & X5 & X6 & L1 & L2).
  exists (mkHA (Some (ar_interval r)) (ar_peers r) (ar_warning r) (ar_min_interval r) (ar_tracker_id r) (ar_complete r) (ar_incomplete r) (option_map flag_bits fo)).
  unfold acc_or, ha_new. ha. rewrite !field_or_none. split; [|split; auto; destruct r; cbn in *; congruence].
  do 6 (split; [auto|]). split.
  { unfold field in FF |- *. destruct (lookup (bs "crypto_flags") d), fo; cbn [option_map]; try tauto. exists b. auto. }
  exists p4, p6. split; auto. split; auto. cbn [app]. rewrite E. f_equal. eapply flagged_fun; [exact FL|].
  apply mark_flagged. unfold field in F4. destruct (lookup (bs "peers") d), p4; cbn [of_option]; try tauto.
  - eapply peer_list_plain; eauto.
  - constructor.
Qed.

Lemma lookup_In k d v : lookup k d = Some v -> exists d1 d2, d = d1 ++ (k, v) :: d2 /\ ~ In k (map fst d1).
Proof.
  induction d as [|[k' v'] d IH]; [discriminate|]. cbn [lookup]. destruct (bytes_eqb_spec k k') as [->|N].
  - intros [= ->]. exists [], d. auto.
  - intros H. destruct (IH H) as (d1 & d2 & -> & NI). exists ((k', v') :: d1), d2. split; auto.
    cbn [map fst]. intros [X|X]; congruence || tauto.
Qed.
Lemma lookup_app k d1 d2 : lookup k (d1 ++ d2) = match lookup k d1 with Some v => Some v | None => lookup k d2 end.
Proof. induction d1 as [|[k' v'] d1 IH]; [reflexivity|]. cbn [app lookup]. destruct (bytes_eqb k k'); auto. Qed.
Lemma ascending_app_lt ks1 k ks2 : ascending (ks1 ++ k :: ks2) ->
  Forall (fun k' => bytes_ltb k' k = true) ks1 /\ Forall (fun k' => bytes_ltb k k' = true) ks2 /\ ascending ks1.
Proof.
  induction ks1 as [|k1 ks1 IH]; cbn [app]; intros H.
  - split; [constructor|]. split; [now apply ascending_lt_all|exact I].
  - pose proof (ascending_lt_all _ _ H) as F. apply ascending_cons in H as [H0 H]. destruct (IH H) as (F1 & F2 & A). repeat split; auto.
    + constructor; auto. rewrite Forall_forall in F. apply F. apply in_app_iff. right. left. auto.
    + apply ascending_cons. split; auto. apply Forall_app in F as [F _]. destruct ks1 as [|k2 ks1]; cbn in *; auto.
Qed.

Lemma canonical_front d1 kv d2 : canonical (VDict (d1 ++ kv :: d2)) -> canonical (VDict d1).
Proof.
  intros [A F]. rewrite map_app in A. cbn [map] in A. apply ascending_app_lt in A as (_ & _ & A). split; auto.
  apply (fold_and_Forall (fun kv => canonical (snd kv))) in F. apply Forall_app in F as [F _].
  now apply (fold_and_Forall (fun kv => canonical (snd kv))).
Qed.

Lemma http_fields_spec d : canonical (VDict d) ->
  http_fields d ha_new <> Panic /\
  (forall r, http_fields d ha_new = Ret (Some (HSuccess r)) <-> http_success d r) /\
  (forall m, http_fields d ha_new = Ret (Some (HFailure m)) <-> http_failure d m).
Proof.
  intros C. destruct (lookup (bs "failure reason") d) as [v|] eqn:LF.
  - destruct (lookup_In _ _ _ LF) as (d1 & d2 & -> & NI).
    pose proof (proj1 C) as A. rewrite map_app in A. cbn [map fst] in A.
    apply ascending_app_lt in A as (B1 & B2 & _). rewrite Forall_forall in B1, B2.
    destruct (hfold_iff d1 (canonical_front _ _ _ C) ha_new) as [NP IFF]; [intros X; now destruct X|].
    rewrite http_fields_app by auto.
    assert (HF : forall h', http_fields ((bs "failure reason", v) :: d2) h' = Ret (leto s := as_bytes v in Some (HFailure (from_utf8_lossy s)))).
    { intros h'. cbn [http_fields]. reflexivity. }
    assert (EQ : match hfold d1 ha_new with Panic => Panic | Ret None => Ret None | Ret (Some h') => http_fields ((bs "failure reason", v) :: d2) h' end
      = match hfold d1 ha_new with Panic => Panic | Ret None => Ret None | Ret (Some _) => Ret (leto s := as_bytes v in Some (HFailure (from_utf8_lossy s))) end).
    { destruct (hfold d1 ha_new) as [[|]|]; auto. }
    rewrite EQ. clear EQ HF.
    assert (L2 : forall k, bytes_ltb k (bs "failure reason") = true -> lookup k (d1 ++ (bs "failure reason", v) :: d2) = lookup k d1).
    { intros k HK. rewrite lookup_app. destruct (lookup k d1); auto. rewrite lookup_cons_ne by now apply bytes_ltb_neq.
      apply lookup_none. intros X. apply B2 in X.
      pose proof (bytes_ltb_trans _ _ _ HK X) as Y. now rewrite bytes_ltb_irrefl in Y. }
    assert (L1 : forall k, bytes_ltb (bs "failure reason") k = true -> lookup k d1 = None).
    { intros k HK. apply lookup_none. intros X. apply B1 in X.
      pose proof (bytes_ltb_trans _ _ _ HK X) as Y. now rewrite bytes_ltb_irrefl in Y. }
    split; [destruct (hfold d1 ha_new) as [[|]|]; congruence|]. split.
    + intros r. split.
      * destruct (hfold d1 ha_new) as [[h'|]|]; try discriminate. destruct (as_bytes v); discriminate.
      * intros (X & _). congruence.
    + intros m. unfold http_failure, field.
      rewrite (L2 (bs "complete")), (L2 (bs "crypto_flags")) by reflexivity. rewrite LF. split.
      * destruct (hfold d1 ha_new) as [[h'|]|] eqn:EH; try discriminate. destruct (as_bytes v) as [s|] eqn:EV; [|discriminate].
        cbn [obind]. intros HM. assert (m = from_utf8_lossy s) as -> by congruence. clear HM. apply as_bytes_iff in EV.
        assert (AO : acc_or d1 ha_new h') by now apply IFF. destruct AO as (X1 & X2 & X3 & X4 & X5 & X6 & X7 & _). split; [|split].
        -- exists s. auto.
        -- exists (ha_complete h'). apply field_or_none in X5. exact X5.
        -- apply field_or_none in X7. unfold field in X7. destruct (lookup (bs "crypto_flags") d1), (ha_flags h'); try tauto.
           ++ destruct X7 as (s' & B & _). exists (Some s'). exact B.
           ++ exists None. auto.
      * intros ((s & -> & ->) & (c & HC) & (f & HB)).
        assert (AO : acc_or d1 ha_new (mkHA None [] None None None c None (option_map flag_bits f))).
        { unfold acc_or, ha_new. ha. rewrite !field_or_none. unfold field.
          rewrite !(L1 (bs "interval")), !(L1 (bs "warning message")), !(L1 (bs "min interval")), !(L1 (bs "tracker id")),
            !(L1 (bs "incomplete")) by reflexivity.
          do 4 (split; [auto|]). split; [exact HC|]. split; [auto|]. split.
          - destruct (lookup (bs "crypto_flags") d1), f; cbn [option_map]; try tauto. exists b. auto.
          - exists None, None. rewrite !(L1 (bs "peers")), !(L1 (bs "peers6")) by reflexivity. conjs; auto.
            destruct f as [[|]|]; reflexivity. }
        apply IFF in AO. rewrite AO. reflexivity.
  - assert (NI : ~ In (bs "failure reason") (map fst d)).
    { intros X. clear -X LF. induction d as [|[k v] d IH]; [exact X|]. cbn [lookup map fst In] in *.
      destruct (bytes_eqb_spec (bs "failure reason") k); [discriminate|]. destruct X; [congruence|auto]. }
    destruct (hfold_iff d C ha_new) as [NP IFF]; [intros X; now destruct X|].
    assert (EQ := http_fields_app d [] ha_new NI). rewrite app_nil_r in EQ. cbn [http_fields] in EQ. rewrite EQ. clear EQ.
    split; [destruct (hfold d ha_new) as [[|]|]; congruence|]. split.
    + intros r. split.
      * destruct (hfold d ha_new) as [[h'|]|] eqn:EH; try discriminate. destruct (ha_interval h') as [i|] eqn:EI; [|discriminate].
        cbn [obind]. intros H. eapply acc_success; [now apply IFF|exact EI|exact LF|]. congruence.
      * intros H. destruct (success_acc _ _ H) as (h' & AO & EI & E). apply IFF in AO. rewrite AO, EI. cbn [obind]. congruence.
    + intros m. split.
      * destruct (hfold d ha_new) as [[h'|]|]; try discriminate. destruct (ha_interval h'); discriminate.
      * intros (X & _). unfold field in X. rewrite LF in X. destruct X.
Qed.

Lemma http_decode_spec s :
  http_decode s <> Panic /\
  (forall r, http_decode s = Ret (Some (HSuccess r)) <->
     exists d, s = encode (VDict d) /\ canonical (VDict d) /\ (depth (VDict d) <= 2048)%nat /\ http_success d r) /\
  (forall m, http_decode s = Ret (Some (HFailure m)) <->
     exists d, s = encode (VDict d) /\ canonical (VDict d) /\ (depth (VDict d) <= 2048)%nat /\ http_failure d m).
Proof.
  unfold http_decode. destruct (decode_tree DEFAULT_MAX_DEPTH s) as [v|] eqn:E.
  - apply decode_tree_iff in E as (-> & C & D). destruct v as [z|b|l|d].
    4: { destruct (http_fields_spec d C) as (H1 & H2 & H3). split; auto. split.
      - intros r. rewrite H2. split; [intros; exists d; auto|]. intros (d' & EE & C' & _ & H).
        apply encode_inj in EE; auto. injection EE as <-. exact H.
      - intros m. rewrite H3. split; [intros; exists d; auto|]. intros (d' & EE & C' & _ & H).
        apply encode_inj in EE; auto. injection EE as <-. exact H. }
    all: split; [discriminate|]; split; intros x; split; [discriminate| |discriminate|]; intros (d' & EE & C' & _);
      apply encode_inj in EE; auto; discriminate EE.
  - split; [discriminate|]. split; intros x; (split; [discriminate|]); intros (d' & EE & C' & D' & _);
      rewrite (proj2 (decode_tree_iff DEFAULT_MAX_DEPTH s (VDict d'))) in E; auto; discriminate E.
Qed.

Lemma tracker_dispatch u : match tracker_of u with
  | Ok (THttp v) => v = u /\ (u_scheme u = bs "http" \/ u_scheme u = bs "https") /\ u_host u <> None
  | Ok (TUdp x) => u_scheme u = bs "udp" /\ udp_url_of u = Ok x
  | Err (UnsupportedScheme s) => s = u_scheme u /\ s <> bs "http" /\ s <> bs "https" /\ s <> bs "udp"
  | Err NoHost => (u_scheme u = bs "http" \/ u_scheme u = bs "https" \/ u_scheme u = bs "udp") /\ u_host u = None
  | Err NoUdpPort => u_scheme u = bs "udp" /\ u_host u <> None /\ u_port u = None
  end.
Proof.
  unfold tracker_of, http_url_of, udp_url_of.
  destruct (bytes_eqb_spec (u_scheme u) (bs "http")) as [E1|E1];
  destruct (bytes_eqb_spec (u_scheme u) (bs "https")) as [E2|E2]; cbn [orb negb andb].
  1-3: destruct (u_host u) eqn:H; cbn [res_bind]; [split; auto; split; [auto|discriminate]|split; [tauto|auto]].
  destruct (bytes_eqb_spec (u_scheme u) (bs "udp")) as [E3|E3]; cbn [negb]; [|auto].
  destruct (u_host u) as [[dm|i]|] eqn:H; cbn [res_bind]; [..|split; auto];
    (destruct (u_port u) eqn:P; cbn [res_bind ok_or]; [auto|split; [auto|split; [discriminate|auto]]]).
Qed.

Lemma announce_url_spec u a own : form (query_text (u_query u)) own ->
  let v := announce_url u a in
  u_scheme v = u_scheme u /\ u_user v = u_user u /\ u_host v = u_host u /\ u_port v = u_port u /\ u_path v = u_path u /\ u_fragment v = None /\
  exists q, u_query v = Some q /\ form q (own ++ announced a) /\ (forall kvs, form q kvs -> kvs = own ++ announced a).
Proof.
  intros F v. do 6 (split; [reflexivity|]). destruct (announce_query_some (u_query u) a) as [q E]. exists q. split; [exact E|].
  apply form_iff in F. subst own.
  assert (form_parse q = form_parse (query_text (u_query u)) ++ announced a) as P.
  { rewrite <- announce_query_parse, E. reflexivity. }
  split; [now apply form_iff|]. intros kvs H. apply form_iff in H. congruence.
Qed.

Lemma announced_inj a b : announced a = announced b -> a = b.
Proof.
  destruct a as [h p dn lf up ev ky nw pt cr], b as [h' p' dn' lf' up' ev' ky' nw' pt' cr']. unfold announced.
  cbn [an_hash an_pid an_downloaded an_left an_uploaded an_event an_key an_numwant an_port an_crypto].
  intros H.
  destruct ev, ev', cr, cr'; cbn [app] in H; try discriminate H;
    (assert (E : h = h' /\ p = p' /\ dec pt = dec pt' /\ dec up = dec up' /\ dec dn = dec dn' /\ dec lf = dec lf' /\ dec nw = dec nw' /\ dec ky = dec ky')
      by (clear -H; repeat split; congruence);
     destruct E as (-> & -> & E1 & E2 & E3 & E4 & E5 & E6); apply dec_inj in E1, E2, E3, E4, E5, E6; subst; reflexivity).
Qed.
