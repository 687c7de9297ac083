(** Lemmas for C35, C36: DHT messages. *)
From Verif Require Import Base BaseFacts S_Bencode M_Bencode P_Bencode S_Utf8 M_Utf8 P_Utf8 M_Net M_Util M_Compact M_Messages M_Tracker S_Wire P_Wire P_ExtWire S_Http P_Http M_DhtMsg S_DhtMsg.

Lemma Forall2_impl {A B} (P Q : A -> B -> Prop) l l' : (forall a b, P a b -> Q a b) -> Forall2 P l l' -> Forall2 Q l l'.
Proof. intros H. induction 1; constructor; auto. Qed.

(** ** Compact nodes *)
Section Vec.
Context {A : Type} (item : bytes -> res compact_error A) (k : nat).
Hypothesis kpos : (0 < k)%nat.
Hypothesis item_len : forall s a, item s = Ok a -> length s = k.
Lemma vec_go_iff fuel s l : (length s <= fuel)%nat ->
  (vec_from_compact_go item k fuel s = Ok l <-> exists parts, s = concat parts /\ Forall2 (fun w a => item w = Ok a) parts l).
Proof using kpos item_len.
  revert s l. induction fuel as [|f IH]; intros s l L.
  - destruct s; [|cbn [length] in L; lia]. cbn [vec_from_compact_go]. split.
    + intros H. exists []. assert (l = []) as -> by congruence. split; auto.
    + intros (parts & E & F). destruct F as [|w a parts l W F]; auto. apply item_len in W.
      destruct w; [cbn [length] in W; lia|discriminate].
  - destruct s as [|c s].
    { cbn [vec_from_compact_go]. split.
      + intros H. exists []. assert (l = []) as -> by congruence. split; auto.
      + intros (parts & E & F). destruct F as [|w a parts l W F]; auto. apply item_len in W.
        destruct w; [cbn [length] in W; lia|discriminate]. }
    cbn [vec_from_compact_go]. set (s' := c :: s) in *. assert (L0 : (0 < length s')%nat) by (subst s'; cbn; lia).
    destruct (Nat.leb_spec k (length s')).
    + split.
      * destruct (item (firstn k s')) as [a|] eqn:E; [|discriminate]. cbn [res_bind].
        destruct (vec_from_compact_go item k f (skipn k s')) as [r|] eqn:E2; [|discriminate]. cbn [res_bind]. intros H'.
        assert (l = a :: r) as -> by congruence. apply IH in E2; [|rewrite skipn_length; lia]. destruct E2 as (parts & P1 & P2).
        exists (firstn k s' :: parts). split; [cbn [concat]; rewrite <- P1; symmetry; apply firstn_skipn|]. constructor; auto.
      * intros (parts & E & F). destruct F as [|w a parts l W F]; [cbn [concat] in E; subst s'; discriminate|].
        cbn [concat] in E. pose proof (item_len _ _ W) as LW. rewrite E, firstn_app, skipn_app, LW, Nat.sub_diag. cbn [firstn skipn].
        rewrite <- LW, firstn_all, skipn_all, app_nil_r, W. cbn [res_bind app].
        assert (X : vec_from_compact_go item k f (concat parts) = Ok l).
        { apply IH; [|exists parts; auto]. rewrite E, app_length in L. lia. }
        rewrite LW, X. reflexivity.
    + split.
      * destruct (item s') as [a|] eqn:E; [|discriminate]. apply item_len in E. lia.
      * intros (parts & E & F). destruct F as [|w a parts l W F]; [cbn [concat] in E; subst s'; discriminate|].
        cbn [concat] in E. apply item_len in W. rewrite E, app_length in H. lia.
Qed.
End Vec.

Lemma try_get_bytes_iff k buf s r : try_get_bytes k buf = Ok (s, r) <-> buf = s ++ r /\ length s = k.
Proof.
  unfold try_get_bytes. destruct (Nat.leb_spec k (length buf)).
  - split.
    + intros E. assert (s = firstn k buf /\ r = skipn k buf) as (-> & ->) by (split; congruence).
      rewrite firstn_skipn, firstn_length. split; auto. lia.
    + intros (-> & <-). rewrite firstn_app, skipn_app, Nat.sub_diag, firstn_all, skipn_all. cbn [firstn skipn]. rewrite app_nil_r. reflexivity.
  - split; [discriminate|]. intros (-> & <-). rewrite app_length in H. lia.
Qed.

Lemma node_iff (v6 : bool) s n : (if v6 then node_from_compact 16 V6 s else node_from_compact 4 V4 s) = Ok n <-> node_wire v6 s n.
Proof.
  unfold node_wire, compact. destruct v6; unfold node_from_compact; split.
  1,3: intros H; destruct (try_get_bytes 20 s) as [[id r]|] eqn:E1; cbn [res_map_err res_bind] in H; [|discriminate];
    apply try_get_bytes_iff in E1; destruct E1 as (-> & L1);
    match type of H with context[try_get_uint ?w r] => destruct (try_get_uint w r) as [[i r2]|] eqn:E2 end; cbn [res_map_err res_bind] in H; [|discriminate];
    apply try_get_uint_iff in E2;
    destruct (try_get_uint 2 r2) as [[p r3]|] eqn:E3; cbn [res_map_err res_bind] in H; [|discriminate];
    apply try_get_uint_iff in E3; destruct r3; [|discriminate]; cbn [eof res_map_err res_bind] in H; apply Ok_inj in H; subst n;
    cbn [nd_id nd_ip nd_port sa_ip sa_port is_v4 address_bytes];
    destruct E2 as (b2 & -> & L2 & V2); destruct E3 as (b3 & -> & L3 & V3);
    exists (b2 ++ b3); rewrite app_nil_r; split; [auto|]; split; [auto|]; split; [|tauto];
    exists b2, b3; auto.
  all: intros (w & -> & L & (h & p & -> & AB & LP & BP) & V); destruct n as [id i pt]; cbn [nd_id nd_ip nd_port sa_ip sa_port is_v4 address_bytes] in *;
    rewrite (proj2 (try_get_bytes_iff 20 _ id (h ++ p))) by auto; cbn [res_map_err res_bind];
    destruct i as [i|i]; cbn [is_v4 sa_ip] in V; try tauto; destruct AB as (LH & BH).
  - rewrite (proj2 (try_get_uint_iff 16 (h ++ p) i p)) by eauto. cbn [res_map_err res_bind].
    rewrite (proj2 (try_get_uint_iff 2 p pt [])) by (exists p; rewrite app_nil_r; auto). reflexivity.
  - rewrite (proj2 (try_get_uint_iff 4 (h ++ p) i p)) by eauto. cbn [res_map_err res_bind].
    rewrite (proj2 (try_get_uint_iff 2 p pt [])) by (exists p; rewrite app_nil_r; auto). reflexivity.
Qed.
Lemma node_len (v6 : bool) s n : node_wire v6 s n -> length s = (if v6 then 38 else 26)%nat.
Proof.
  intros (w & -> & L & (h & p & -> & AB & LP & BP) & V). rewrite !app_length.
  cbn [sa_ip] in AB. unfold is_v4 in V. cbn [sa_ip] in V. destruct (nd_ip n), v6; cbn [address_bytes] in AB; try tauto; lia.
Qed.

Lemma nodes_iff (v6 : bool) v ns :
  (leto s := as_bytes v in res_ok (if v6 then nodes6_from_compact s else nodes4_from_compact s)) = Some ns <-> compact_nodes v6 v ns.
Proof.
  assert (G : forall s, (if v6 then nodes6_from_compact s else nodes4_from_compact s) = Ok ns <->
    exists parts, s = concat parts /\ Forall2 (node_wire v6) parts ns).
  { intros s. pose proof (node_iff v6) as NI. pose proof (node_len v6) as NL.
    destruct v6; unfold nodes6_from_compact, nodes4_from_compact.
    - rewrite vec_go_iff; [|lia|intros ? ? X; apply NI in X; eauto|lia].
      split; intros (parts & E & F); exists parts; (split; [auto|]); (eapply Forall2_impl; [|exact F]); intros; apply NI; auto.
    - rewrite vec_go_iff; [|lia|intros ? ? X; apply NI in X; eauto|lia].
      split; intros (parts & E & F); exists parts; (split; [auto|]); (eapply Forall2_impl; [|exact F]); intros; apply NI; auto. }
  unfold compact_nodes. rewrite obind_some. split.
  - intros (s & E & H). apply as_bytes_iff in E. red in E. subst v.
    destruct (if v6 then nodes6_from_compact s else nodes4_from_compact s) eqn:X; [|discriminate].
    cbn [res_ok] in H. assert (a = ns) by congruence. subst a. apply G in X. destruct X as (parts & -> & F). eauto.
  - intros (parts & -> & F). exists (concat parts). split; [reflexivity|].
    rewrite (proj2 (G (concat parts))) by eauto. reflexivity.
Qed.

(** ** Fields *)
Lemma as_node_id_iff v s : as_node_id v = Some s <-> string20 v s.
Proof.
  unfold as_node_id, string20. rewrite obind_some. split.
  - intros (b & H1 & H2). apply as_bytes_iff in H1. destruct (Nat.eqb_spec (length b) 20); [|discriminate].
    assert (b = s) by congruence. subst. auto.
  - intros (-> & L). exists s. split; [reflexivity|]. rewrite L. reflexivity.
Qed.
Lemma address_iff v a : as_compact_addr v = Some a <-> address v a.
Proof.
  unfold as_compact_addr, address. rewrite obind_some. split.
  - intros (s & H1 & H2). apply as_bytes_iff in H1. red in H1. exists s. split; auto. apply compact_iff.
    destruct (from_compact s); cbn [res_ok] in H2; congruence.
  - intros (s & -> & H). exists s. split; [reflexivity|]. apply compact_iff in H. rewrite H. reflexivity.
Qed.
Lemma values_iff v ps : (leto l := as_list v in decode_values l) = Some ps <-> peer_values v ps.
Proof.
  assert (G : forall l ps, decode_values l = Some ps <-> Forall2 (fun v p => address v (pr_addr p) /\ pr_id p = None /\ pr_crypto p = false) l ps).
  { induction l as [|x l IH]; intros qs; cbn [decode_values].
    - split; [intros H; assert (qs = []) by congruence; subst; constructor|intros H; inversion H; auto].
    - split.
      + intros H. apply obind_some in H as (a & H1 & H). apply obind_some in H as (r & H2 & H).
        assert (qs = peer_of_addr a :: r) by congruence. subst qs. constructor; [|apply IH; auto].
        apply address_iff in H1. cbn. auto.
      + intros H. inversion H as [|? p ? qs' (H1 & H2 & H3) F]; subst. apply address_iff in H1. rewrite H1. cbn [obind].
        apply IH in F. rewrite F. cbn [obind]. destruct p as [pa pi pc]. cbn in *. subst. reflexivity. }
  unfold peer_values. rewrite obind_some. split.
  - intros (l & H1 & H2). destruct v; try discriminate. cbn [as_list] in H1. assert (l0 = l) by congruence. subst.
    exists l. split; auto. apply G. auto.
  - intros (l & -> & F). exists l. split; [reflexivity|]. apply G. auto.
Qed.
Lemma dict_iff v d : as_dict v = Some d <-> dict_value v d.
Proof. unfold dict_value. destruct v; cbn [as_dict]; split; congruence. Qed.

(** A field whose items are appended. *)
Definition ext {A} (R : value -> list A -> Prop) k d (l0 l : list A) : Prop :=
  exists o, field R k d o /\ l = l0 ++ of_option o.
Lemma ext_skip {A} (R : value -> list A -> Prop) k k' v d l0 l : k <> k' -> (ext R k ((k', v) :: d) l0 l <-> ext R k d l0 l).
Proof. intros N. unfold ext, field. now rewrite lookup_cons_ne. Qed.
Lemma ext_take {A} (R : value -> list A -> Prop) k v d l0 l : ~ In k (map fst d) ->
  (ext R k ((k, v) :: d) l0 l <-> exists a, R v a /\ ext R k d (l0 ++ a) l).
Proof.
  intros N. unfold ext. split.
  - intros (o & F & ->). apply field_take in F as (a & -> & H). exists a. split; auto. exists None. split.
    + apply field_none; auto. apply lookup_none; auto.
    + cbn [of_option]. now rewrite app_nil_r.
  - intros (a & H & o & F & ->). apply field_none in F; [|apply lookup_none; auto]. subst o. exists (Some a).
    split; [apply field_take; eauto|]. cbn [of_option]. now rewrite app_nil_r.
Qed.
Lemma ext_nil {A} (R : value -> list A -> Prop) k l0 l : ext R k [] l0 l <-> l = l0.
Proof.
  unfold ext, field. cbn [lookup]. split.
  - intros (o & F & ->). destruct o; [tauto|]. apply app_nil_r.
  - intros ->. exists None. split; auto. now rewrite app_nil_r.
Qed.
Lemma field_or_nil {A} (R : value -> A -> Prop) k o0 o : field_or R k [] o0 o <-> o = o0.
Proof. reflexivity. Qed.

Definition r_or (d : list (bytes * value)) (a b : r_acc) : Prop :=
  field_or string20 (bs "id") d (ra_id a) (ra_id b) /\
  ext peer_values (bs "values") d (ra_values a) (ra_values b) /\
  ext (compact_nodes false) (bs "nodes") d (ra_nodes a) (ra_nodes b) /\
  ext (compact_nodes true) (bs "nodes6") d (ra_nodes6 a) (ra_nodes6 b) /\
  field_or byte_string (bs "token") d (ra_token a) (ra_token b).
Ltac rs := cbn [ra_id ra_values ra_nodes ra_nodes6 ra_token].
Ltac oneside := intros H; decompose [ex and] H; clear H; repeat eexists; eauto.

Lemma r_fields_iff d : NoDup (map fst d) -> forall a b, r_fields d a = Some b <-> r_or d a b.
Proof.
  induction d as [|[k v] d IH]; intros ND a b.
  - unfold r_or. cbn [r_fields]. rewrite !field_or_nil, !ext_nil. destruct a, b; rs. split.
    + intros E. injection E as -> -> -> -> ->. tauto.
    + intros (-> & -> & -> & -> & ->). reflexivity.
  - cbn [map fst] in ND. inversion ND as [|? ? NI ND']; subst. specialize (IH ND'). cbn [r_fields].
    destruct (bytes_eqb_spec k (bs "id")) as [->|N1].
    { unfold r_or. rewrite field_or_take by auto. rewrite ?ext_skip, ?field_or_skip by keyneq.
      rewrite obind_some. split.
      - intros (x & H & E). apply IH in E. unfold r_or in E. revert E. rs. apply as_node_id_iff in H. intros. decompose [and] E. conjs; eauto.
      - intros ((x & H & E) & T). apply as_node_id_iff in H. exists x. split; auto. apply IH. unfold r_or. rs. tauto. }
    destruct (bytes_eqb_spec k (bs "nodes")) as [->|N2].
    { unfold r_or. rewrite ext_take by auto. rewrite ?ext_skip, ?field_or_skip by keyneq.
      rewrite obind_some. split.
      - intros (x & H & E). apply IH in E. unfold r_or in E. revert E. rs. apply (nodes_iff false) in H. intros. decompose [and] E. conjs; eauto.
      - intros (T0 & T1 & (x & H & E) & T). apply (nodes_iff false) in H. exists x. split; auto. apply IH. unfold r_or. rs. tauto. }
    destruct (bytes_eqb_spec k (bs "nodes6")) as [->|N3].
    { unfold r_or. rewrite ext_take by auto. rewrite ?ext_skip, ?field_or_skip by keyneq.
      rewrite obind_some. split.
      - intros (x & H & E). apply IH in E. unfold r_or in E. revert E. rs. apply (nodes_iff true) in H. intros. decompose [and] E. conjs; eauto.
      - intros (T0 & T1 & T2 & (x & H & E) & T). apply (nodes_iff true) in H. exists x. split; auto. apply IH. unfold r_or. rs. tauto. }
    destruct (bytes_eqb_spec k (bs "values")) as [->|N4].
    { unfold r_or. rewrite ext_take by auto. rewrite ?ext_skip, ?field_or_skip by keyneq.
      rewrite obind_some. split.
      - intros (x & H & E). apply IH in E. unfold r_or in E. revert E. rs. apply values_iff in H. intros. decompose [and] E. conjs; eauto.
      - intros (T0 & (x & H & E) & T). apply values_iff in H. exists x. split; auto. apply IH. unfold r_or. rs. tauto. }
    destruct (bytes_eqb_spec k (bs "token")) as [->|N5].
    { unfold r_or. rewrite field_or_take by auto. rewrite ?ext_skip, ?field_or_skip by keyneq.
      rewrite obind_some. split.
      - intros (x & H & E). apply IH in E. unfold r_or in E. revert E. rs. apply as_bytes_iff in H. intros. decompose [and] E. conjs; eauto.
      - intros (T0 & T1 & T2 & T3 & (x & H & E)). apply as_bytes_iff in H. exists x. split; auto. apply IH. unfold r_or. rs. tauto. }
    rewrite IH. unfold r_or. rewrite ?ext_skip, ?field_or_skip by congruence. tauto.
Qed.

Definition y_is (t : bytes) (d : list (bytes * value)) : Prop := forall v, lookup (bs "y") d = Some v -> text v t.
Lemma y_skip t k v d : bs "y" <> k -> (y_is t ((k, v) :: d) <-> y_is t d).
Proof. intros N. unfold y_is. now rewrite lookup_cons_ne. Qed.
Definition r_part (d : list (bytes * value)) (a b : r_acc) : Prop :=
  match lookup (bs "r") d with
  | None => b = a
  | Some v => exists rd, v = VDict rd /\ r_or rd a b
  end.
Lemma r_skip k v d a b : bs "r" <> k -> (r_part ((k, v) :: d) a b <-> r_part d a b).
Proof. intros N. unfold r_part. now rewrite lookup_cons_ne. Qed.
Definition ga_or (d : list (bytes * value)) (a b : gpr_acc) : Prop :=
  y_is (bs "r") d /\
  field_or byte_string (bs "t") d (ga_txn a) (ga_txn b) /\
  field_or byte_string (bs "v") d (ga_client a) (ga_client b) /\
  field_or address (bs "ip") d (ga_addr a) (ga_addr b) /\
  r_part d (ga_r a) (ga_r b).
Ltac gs := cbn [ga_txn ga_client ga_addr ga_r].
Ltac skip5 := rewrite ?y_skip, ?r_skip, ?field_or_skip by keyneq.
Lemma canonical_dict_in k v d : canonical (VDict ((k, v) :: d)) -> canonical v /\ canonical (VDict d) /\ ~ In k (map fst d).
Proof.
  intros C. destruct (canonical_entry _ _ _ C) as [A B]. split; auto. split; auto.
  pose proof (ascending_nodup _ (proj1 C)) as ND. cbn [map fst] in ND. inversion ND; auto.
Qed.
Lemma gpr_fields_iff d : canonical (VDict d) -> forall a b, gpr_fields d a = Some b <-> ga_or d a b.
Proof.
  induction d as [|[k v] d IH]; intros C a b.
  - unfold ga_or, r_part, y_is. cbn [gpr_fields lookup]. rewrite !field_or_nil. destruct a, b; gs. split.
    + intros E. injection E as -> -> -> ->. conjs; auto. discriminate.
    + intros (_ & -> & -> & -> & ->). reflexivity.
  - apply canonical_dict_in in C as (CV & CD & NI). specialize (IH CD). cbn [gpr_fields].
    destruct (bytes_eqb_spec k (bs "t")) as [->|N1].
    { unfold ga_or. rewrite field_or_take by auto. skip5. rewrite obind_some. split.
      - intros (x & H & E). apply IH in E. unfold ga_or in E. revert E. gs. apply as_bytes_iff in H. intros. decompose [and] E. conjs; eauto.
      - intros (T0 & (x & H & E) & T). apply as_bytes_iff in H. exists x. split; auto. apply IH. unfold ga_or. gs. tauto. }
    destruct (bytes_eqb_spec k (bs "v")) as [->|N2].
    { unfold ga_or. rewrite field_or_take by auto. skip5. rewrite obind_some. split.
      - intros (x & H & E). apply IH in E. unfold ga_or in E. revert E. gs. apply as_bytes_iff in H. intros. decompose [and] E. conjs; eauto.
      - intros (T0 & T1 & (x & H & E) & T). apply as_bytes_iff in H. exists x. split; auto. apply IH. unfold ga_or. gs. tauto. }
    destruct (bytes_eqb_spec k (bs "y")) as [->|N3].
    { unfold ga_or at 1. skip5. rewrite obind_some. unfold y_is. rewrite lookup_cons_eq.
      assert (Y : y_is (bs "r") d) by (intros v' X; rewrite lookup_none in X by auto; discriminate). split.
      - intros (x & H & E). destruct (bytes_eqb_spec x (bs "r")) as [->|]; [|discriminate]. apply IH in E. unfold ga_or in E.
        decompose [and] E. conjs; auto. intros v' EV. assert (v = v') by congruence. subst. apply as_string_iff. auto.
      - intros (T0 & T). exists (bs "r"). split; [apply as_string_iff; auto|]. rewrite bytes_eqb_refl. apply IH. unfold ga_or. tauto. }
    destruct (bytes_eqb_spec k (bs "r")) as [->|N4].
    { unfold ga_or at 1. skip5. rewrite obind_some. unfold r_part at 1. rewrite lookup_cons_eq. split.
      - intros (rd & H & E). apply dict_iff in H. red in H. subst v. apply obind_some in E as (x & R & E). apply IH in E. unfold ga_or in E. revert E. gs.
        intros. decompose [and] E. conjs; auto. exists rd. split; auto. apply r_fields_iff in R; [|apply ascending_nodup, CV].
        match goal with X : r_part d x _ |- _ => unfold r_part in X; rewrite lookup_none in X by auto; rewrite X; exact R end.
      - intros (T0 & T1 & T2 & T3 & (rd & -> & R)). exists rd. split; auto. apply r_fields_iff in R; [|apply ascending_nodup, CV]. rewrite R. cbn [obind].
        apply IH. unfold ga_or. gs. conjs; auto. unfold r_part. rewrite lookup_none by auto. auto. }
    destruct (bytes_eqb_spec k (bs "ip")) as [->|N5].
    { unfold ga_or. rewrite field_or_take by auto. skip5. rewrite obind_some. split.
      - intros (x & H & E). apply IH in E. unfold ga_or in E. revert E. gs. apply address_iff in H. intros. decompose [and] E. conjs; eauto.
      - intros (T0 & T1 & T2 & (x & H & E) & T). apply address_iff in H. exists x. split; auto. apply IH. unfold ga_or. gs. tauto. }
    rewrite IH. unfold ga_or. rewrite ?y_skip, ?r_skip, ?field_or_skip by congruence. tauto.
Qed.

Lemma text_fun v s s' : text v s -> text v s' -> s = s'.
Proof. intros (E & _) (E' & _). congruence. Qed.
Lemma byte_string_fun v s s' : byte_string v s -> byte_string v s' -> s = s'.
Proof. unfold byte_string. congruence. Qed.

Lemma gpr_decode_iff d r : canonical (VDict d) -> field text (bs "y") d (Some (bs "r")) ->
  (gpr_decode (VDict d) = Some r <-> response_says d r).
Proof.
  intros C Y. unfold gpr_decode. cbn [as_dict obind]. split.
  - intros H. apply obind_some in H as (a & H1 & H). apply obind_some in H as (txn & H2 & H). apply obind_some in H as (id & H3 & H).
    apply gpr_fields_iff in H1; auto. unfold ga_or in H1. revert H1. gs. rewrite !field_or_none. intros (_ & T & V & IP & R).
    match type of H with Some ?x = Some r => assert (x = r) by congruence end. subst r. clear H.
    unfold response_says. cbn [gr_txn gr_client gr_node_id gr_values gr_nodes gr_nodes6 gr_token gr_your_addr].
    rewrite H2 in T. conjs; auto. unfold r_part in R. destruct (lookup (bs "r") d) as [v|] eqn:L; [|rewrite R in H3; discriminate].
    destruct R as (rd & -> & R). unfold r_or in R. revert R. unfold ra_new. rs. rewrite !field_or_none. intros (I1 & (vs & F1 & E1) & (ns & F2 & E2) & (n6 & F3 & E3) & TK).
    cbn [app] in *. exists rd, vs, ns, n6. rewrite H3 in I1. conjs; auto. unfold field. rewrite L. reflexivity.
  - intros (_ & T & V & IP & rd & vs & ns & n6 & RD & I1 & TK & F1 & E1 & F2 & E2 & F3 & E3).
    destruct r as [txn cl id values nodes nodes6 tok addr]. cbn [gr_txn gr_client gr_node_id gr_values gr_nodes gr_nodes6 gr_token gr_your_addr] in *.
    rewrite (proj2 (gpr_fields_iff d C (mkGA None None ra_new None) (mkGA (Some txn) cl (mkRA (Some id) values nodes nodes6 tok) addr))).
    + reflexivity.
    + unfold ga_or. gs. rewrite !field_or_none. conjs; auto.
      * intros v L. unfold field in Y. rewrite L in Y. auto.
      * unfold r_part. unfold field in RD. destruct (lookup (bs "r") d) as [v|]; [|tauto]. exists rd. split; auto.
        unfold r_or, ra_new. rs. rewrite !field_or_none. subst. conjs; auto; eexists; split; eauto.
Qed.

(** ** Errors *)
Lemma error_code_iff v c : as_error_code v = Some c <-> exists n, uint 32 v n /\ code_number c n.
Proof.
  unfold as_error_code. rewrite obind_some. split.
  - intros (n & H & E). apply as_uint_iff in H. exists n. split; auto. apply (f_equal (fun o => match o with Some x => x | None => c end)) in E. subst c.
    destruct (N.eqb_spec n 201); [cbn; auto|]. destruct (N.eqb_spec n 202); [cbn; auto|].
    destruct (N.eqb_spec n 203); [cbn; auto|]. destruct (N.eqb_spec n 204); [cbn; auto|]. cbn. auto.
  - intros (n & H & E). exists n. split; [apply as_uint_iff; auto|]. f_equal. destruct c; cbn [code_number] in E; try (subst n; reflexivity).
    destruct E as (-> & A1 & A2 & A3 & A4). apply N.eqb_neq in A1, A2, A3, A4. rewrite A1, A2, A3, A4. reflexivity.
Qed.

(** The "e" entry sets code and message; an incomplete list sets at most the code. *)
Definition e_part (d : list (bytes * value)) (a b : option error_code * option bytes) : Prop :=
  match lookup (bs "e") d with
  | None => b = a
  | Some v => exists l, v = VList l /\
      match l with
      | [] => fst b = fst a /\ snd b = snd a
      | c :: r => exists cc n, fst b = Some cc /\ uint 32 c n /\ code_number cc n /\
          match r with [] => snd b = snd a | m :: _ => exists s, message m s /\ snd b = Some s end
      end
  end.
Lemma e_skip k v d a b : bs "e" <> k -> (e_part ((k, v) :: d) a b <-> e_part d a b).
Proof. intros N. unfold e_part. now rewrite lookup_cons_ne. Qed.
Definition ea_or (d : list (bytes * value)) (a b : er_acc) : Prop :=
  y_is (bs "e") d /\
  field_or byte_string (bs "t") d (ea_txn a) (ea_txn b) /\
  field_or byte_string (bs "v") d (ea_client a) (ea_client b) /\
  field_or address (bs "ip") d (ea_addr a) (ea_addr b) /\
  e_part d (ea_code a, ea_message a) (ea_code b, ea_message b).
Ltac es := cbn [ea_txn ea_client ea_code ea_message ea_addr].
Ltac skipe := rewrite ?y_skip, ?e_skip, ?field_or_skip by keyneq.
Lemma er_fields_iff d : canonical (VDict d) -> forall a b,
  (ea_code a = None -> ea_message a = None) -> (ea_code a <> None -> ~ In (bs "e") (map fst d)) ->
  (er_fields d a = Some b <-> ea_or d a b).
Proof.
  induction d as [|[k v] d IH]; intros C a b HM HC.
  - unfold ea_or, e_part, y_is. cbn [er_fields lookup]. rewrite !field_or_nil. destruct a, b; es. split.
    + intros E. injection E as -> -> -> -> ->. conjs; auto. discriminate.
    + intros (_ & -> & -> & -> & E). injection E as -> ->. reflexivity.
  - apply canonical_dict_in in C as (CV & CD & NI). specialize (fun a b => IH CD a b). cbn [er_fields].
    assert (HC' : ea_code a <> None -> ~ In (bs "e") (map fst d)) by (intros X Y; apply (HC X); right; auto).
    destruct (bytes_eqb_spec k (bs "e")) as [->|N0].
    { assert (CN : ea_code a = None). { destruct (ea_code a) eqn:E; auto. exfalso. apply HC; [discriminate|left; reflexivity]. }
      assert (MN : ea_message a = None) by auto.
      unfold ea_or at 1. skipe. rewrite obind_some. unfold e_part at 1. rewrite lookup_cons_eq. cbn [fst snd].
      assert (EP : forall x y, e_part d x y <-> y = x) by (intros; unfold e_part; rewrite lookup_none by auto; tauto).
      split.
      - intros (l & H & E). destruct v; try discriminate. cbn [as_list] in H. assert (l0 = l) by congruence. subst l0. clear H.
        apply obind_some in E as ([code l'] & E1 & E). apply obind_some in E as (msg & E2 & E).
        assert (PRE : (code = None -> msg = None) /\ (code = None -> l = [])).
        { destruct l as [|x l0]; [|apply obind_some in E1 as (cc & _ & E1); assert (code = Some cc) as -> by congruence; split; discriminate].
          assert (code = None) as -> by congruence. split; auto. intros _. congruence. }
        apply IH in E; es; [|tauto|auto]. unfold ea_or in E. revert E. es. rewrite EP. intros (T0 & T1 & T2 & T3 & T4). conjs; auto.
        exists l. split; auto. injection T4 as TC TM. rewrite TC, TM.
        destruct l as [|x l0].
        + assert (code = ea_code a /\ l' = []) as (-> & ->) by (split; congruence). rewrite CN in E2. split; auto. congruence.
        + apply obind_some in E1 as (cc & X & E1). assert (code = Some cc /\ l' = l0) as (-> & ->) by (split; congruence).
          apply error_code_iff in X as (n & X1 & X2). exists cc, n. conjs; auto.
          destruct l0 as [|m l0]; [congruence|]. apply obind_some in E2 as (s & S1 & S2). apply as_bytes_iff in S1. red in S1. subst m.
          exists (from_utf8_lossy s). split; [exists s; auto|]. congruence.
      - intros (T0 & T1 & T2 & T3 & (l & -> & E)). exists l. split; [reflexivity|].
        destruct l as [|x l0].
        + cbn [obind]. rewrite CN. cbn [obind]. apply IH; es; [auto|tauto|]. unfold ea_or. es. rewrite EP. conjs; auto. f_equal; tauto || (destruct E; congruence).
        + destruct E as (cc & n & E1 & X1 & X2 & M). rewrite (proj2 (error_code_iff x cc)) by eauto. cbn [obind].
          destruct l0 as [|m l0].
          * cbn [obind]. apply IH; es; [discriminate|auto|]. unfold ea_or. es. rewrite EP. conjs; auto. congruence.
          * destruct M as (s & (raw & -> & ->) & M). cbn [as_bytes obind]. apply IH; es; [discriminate|auto|]. unfold ea_or. es. rewrite EP. conjs; auto. congruence. }
    destruct (bytes_eqb_spec k (bs "t")) as [->|N1].
    { unfold ea_or. rewrite field_or_take by auto. skipe. rewrite obind_some. split.
      - intros (x & H & E). apply IH in E; es; auto. unfold ea_or in E. revert E. es. apply as_bytes_iff in H. intros. decompose [and] E. conjs; eauto.
      - intros (T0 & (x & H & E) & T). apply as_bytes_iff in H. exists x. split; auto. apply IH; es; auto. unfold ea_or. es. tauto. }
    destruct (bytes_eqb_spec k (bs "v")) as [->|N2].
    { unfold ea_or. rewrite field_or_take by auto. skipe. rewrite obind_some. split.
      - intros (x & H & E). apply IH in E; es; auto. unfold ea_or in E. revert E. es. apply as_bytes_iff in H. intros. decompose [and] E. conjs; eauto.
      - intros (T0 & T1 & (x & H & E) & T). apply as_bytes_iff in H. exists x. split; auto. apply IH; es; auto. unfold ea_or. es. tauto. }
    destruct (bytes_eqb_spec k (bs "y")) as [->|N3].
    { unfold ea_or at 1. skipe. rewrite obind_some. unfold y_is. rewrite lookup_cons_eq.
      assert (Y : y_is (bs "e") d) by (intros v' X; rewrite lookup_none in X by auto; discriminate). split.
      - intros (x & H & E). destruct (bytes_eqb_spec x (bs "e")) as [->|]; [|discriminate]. apply IH in E; auto. unfold ea_or in E.
        decompose [and] E. conjs; auto. intros v' EV. assert (v = v') by congruence. subst. apply as_string_iff. auto.
      - intros (T0 & T). exists (bs "e"). split; [apply as_string_iff; auto|]. rewrite bytes_eqb_refl. apply IH; auto. unfold ea_or. tauto. }
    destruct (bytes_eqb_spec k (bs "ip")) as [->|N5].
    { unfold ea_or. rewrite field_or_take by auto. skipe. rewrite obind_some. split.
      - intros (x & H & E). apply IH in E; es; auto. unfold ea_or in E. revert E. es. apply address_iff in H. intros. decompose [and] E. conjs; eauto.
      - intros (T0 & T1 & T2 & (x & H & E) & T). apply address_iff in H. exists x. split; auto. apply IH; es; auto. unfold ea_or. es. tauto. }
    rewrite IH by auto. unfold ea_or. rewrite ?y_skip, ?e_skip, ?field_or_skip by congruence. tauto.
Qed.

Lemma er_decode_iff d e : canonical (VDict d) -> field text (bs "y") d (Some (bs "e")) ->
  (er_decode (VDict d) = Some e <-> error_says d e).
Proof.
  intros C Y. unfold er_decode. cbn [as_dict obind]. split.
  - intros H. apply obind_some in H as (a & H1 & H). apply obind_some in H as (txn & H2 & H). apply obind_some in H as (code & H3 & H). apply obind_some in H as (msg & H4 & H).
    apply er_fields_iff in H1; es; auto; try congruence. unfold ea_or in H1. revert H1. es. rewrite !field_or_none. intros (_ & T & V & IP & R).
    match type of H with Some ?x = Some e => assert (x = e) by congruence end. subst e. clear H.
    unfold error_says. cbn [er_txn er_client er_code er_message er_addr]. rewrite H2 in T. conjs; auto.
    unfold e_part in R. unfold field. rewrite H3, H4 in R. destruct (lookup (bs "e") d) as [v|]; [|congruence].
    cbn [fst snd] in R. destruct R as (l & -> & R). destruct l as [|c [|m rest]].
    + destruct R; discriminate.
    + destruct R as (? & ? & _ & _ & _ & X). discriminate.
    + destruct R as (cc & n & E1 & U & CN & s & M & E2). exists c, m, rest, n. cbn [fst snd]. assert (cc = code /\ s = msg) as (-> & ->) by (split; congruence). auto.
  - intros (_ & T & V & IP & E). destruct e as [txn cl code msg addr]. cbn [er_txn er_client er_code er_message er_addr] in *.
    rewrite (proj2 (er_fields_iff d C (mkEA None None None None None) (mkEA (Some txn) cl (Some code) (Some msg) addr) ltac:(auto) ltac:(cbn; congruence))).
    + reflexivity.
    + unfold ea_or. es. rewrite !field_or_none. conjs; auto.
      * intros v L. unfold field in Y. rewrite L in Y. auto.
      * unfold e_part. unfold field in E. destruct (lookup (bs "e") d) as [v|]; [|tauto]. destruct E as (c & m & rest & n & -> & U & CN & M). cbn [fst snd] in *.
        exists (c :: m :: rest). split; auto. exists code, n. conjs; auto. exists msg. auto.
Qed.

(** ** Reading "y" *)
Lemma find_y_lookup d : forall fuel prev rest, canonical (VDict d) -> (depth (VDict d) <= DEFAULT_MAX_DEPTH)%nat ->
  match d with [] => True | kv :: _ => prev_lt prev (fst kv) = true end -> (length d < fuel)%nat ->
  find_y fuel prev (concat (map pair_enc d) ++ "e"%byte :: rest) = lookup (bs "y") d.
Proof.
  induction d as [|[k v] d IH]; intros fuel prev rest C D P F; (destruct fuel as [|f]; [cbn [length] in F; lia|]).
  - reflexivity.
  - destruct (canonical_dict_in _ _ _ C) as (CV & CD & NI).
    assert (DV : (depth v <= Nat.pred DEFAULT_MAX_DEPTH)%nat /\ (depth (VDict d) <= DEFAULT_MAX_DEPTH)%nat).
    { unfold DEFAULT_MAX_DEPTH in *. change (depth (VDict ((k, v) :: d))) with (S (Nat.max (depth v) (fold_right (fun kv m => Nat.max (depth (snd kv)) m) O d))) in D.
      change (depth (VDict d)) with (S (fold_right (fun kv m => Nat.max (depth (snd kv)) m) O d)). lia. }
    destruct DV as (DV & DD).
    cbn [map concat]. unfold pair_enc at 1. cbn [fst snd] in *. rewrite <- !app_assoc.
    destruct (encode_bytes_head k) as (c & r & E & Hc). apply is_digit_not in Hc.
    cbn [find_y]. rewrite E at 1. cbn [app]. destruct (beqb_spec c "e"); [tauto|].
    rewrite take_string_enc. cbn [obind]. rewrite P.
    fold (parse (Nat.pred DEFAULT_MAX_DEPTH) (encode v ++ concat (map pair_enc d) ++ "e"%byte :: rest)).
    rewrite parse_complete by auto. cbn [obind].
    destruct (bytes_eqb_spec k (bs "y")) as [->|N].
    + rewrite lookup_cons_eq. reflexivity.
    + rewrite lookup_cons_ne by congruence. apply IH; auto; [|cbn [length] in F; lia].
      destruct d as [|[k2 v2] d]; auto. cbn [prev_lt fst]. destruct C as [A _]. cbn [map fst] in A. apply ascending_cons in A. tauto.
Qed.
Lemma pairs_len d : (length d <= length (concat (map pair_enc d)))%nat.
Proof.
  induction d as [|[k v] d IH]; cbn [length map concat]; [lia|]. rewrite app_length. unfold pair_enc at 1. rewrite app_length.
  pose proof (encode_bytes_len (fst (k, v))). lia.
Qed.
Lemma scan_y_encode d rest : canonical (VDict d) -> (depth (VDict d) <= DEFAULT_MAX_DEPTH)%nat ->
  scan_y (encode (VDict d) ++ rest) = (leto v := lookup (bs "y") d in as_message_type v).
Proof.
  intros C D. cbn [encode app]. unfold scan_y. cbn [Byte.eqb]. change (Byte.eqb "d" "d") with true. cbv iota.
  rewrite <- app_assoc. change (map (fun kv => encode_bytes (fst kv) ++ encode (snd kv)) d) with (map pair_enc d). cbn [app].
  rewrite find_y_lookup; auto; [destruct d; auto|]. rewrite app_length. pose proof (pairs_len d). lia.
Qed.
Lemma type_iff v y : as_message_type v = Some y <-> text v (type_text y).
Proof.
  unfold as_message_type. rewrite obind_some. split.
  - intros (s & H & E). apply as_string_iff in H.
    destruct (bytes_eqb_spec s (bs "q")) as [->|]; [assert (y = TQuery) as -> by congruence; auto|].
    destruct (bytes_eqb_spec s (bs "r")) as [->|]; [assert (y = TResponse) as -> by congruence; auto|].
    destruct (bytes_eqb_spec s (bs "e")) as [->|]; [assert (y = TError) as -> by congruence; auto|]. discriminate.
  - intros H. exists (type_text y). split; [apply as_string_iff; auto|]. destruct y; reflexivity.
Qed.
Lemma scan_y_iff d rest y : canonical (VDict d) -> (depth (VDict d) <= DEFAULT_MAX_DEPTH)%nat ->
  (scan_y (encode (VDict d) ++ rest) = Some y <-> field text (bs "y") d (Some (type_text y))).
Proof.
  intros C D. rewrite scan_y_encode by auto. rewrite obind_some. unfold field. split.
  - intros (v & -> & H). apply type_iff. auto.
  - destruct (lookup (bs "y") d) as [v|]; [|tauto]. intros H. exists v. split; auto. apply type_iff. auto.
Qed.

Definition dict_packet (msg : bytes) (d : list (bytes * value)) : Prop :=
  msg = encode (VDict d) /\ canonical (VDict d) /\ (depth (VDict d) <= 2048)%nat.
Lemma decode_bencode_iff {A} (dec : value -> option A) msg a : (forall v, dec v = Some a -> exists d, v = VDict d) ->
  (decode_bencode dec msg = Some a <-> exists d, dict_packet msg d /\ dec (VDict d) = Some a).
Proof.
  intros HD. unfold decode_bencode, dict_packet. split.
  - destruct (decode_tree DEFAULT_MAX_DEPTH msg) as [v|] eqn:E; [|discriminate]. intros H.
    apply decode_tree_iff in E as (-> & C & D). destruct (HD _ H) as (d & ->). exists d. auto.
  - intros (d & (-> & C & D) & H). rewrite (proj2 (decode_tree_iff DEFAULT_MAX_DEPTH _ (VDict d))) by auto. auto.
Qed.

Lemma response_iff msg r : decode_response msg = Ok r <-> exists d, dict_packet msg d /\ response_says d r.
Proof.
  unfold decode_response. split.
  - destruct (scan_y msg) as [[| |]|] eqn:Y; try discriminate; [|destruct (decode_bencode er_decode msg); discriminate].
    intros H. assert (E : decode_bencode gpr_decode msg = Some r) by (destruct (decode_bencode gpr_decode msg); cbn [ok_or] in H; congruence).
    apply decode_bencode_iff in E as (d & P & E); [|intros v X; unfold gpr_decode in X; destruct v; try discriminate; eauto].
    exists d. split; auto. destruct P as (-> & C & D). apply gpr_decode_iff; auto.
    rewrite <- (app_nil_r (encode (VDict d))) in Y. apply scan_y_iff in Y; auto.
  - intros (d & P & R). pose proof P as (-> & C & D).
    assert (Y : field text (bs "y") d (Some (bs "r"))) by apply R.
    rewrite <- (app_nil_r (encode (VDict d))) at 1.
    rewrite (proj2 (scan_y_iff d [] TResponse C D)) by auto.
    rewrite (proj2 (decode_bencode_iff gpr_decode (encode (VDict d)) r ltac:(intros v X; unfold gpr_decode in X; destruct v; try discriminate; eauto))); [reflexivity|].
    exists d. split; auto. apply gpr_decode_iff; auto.
Qed.
Lemma error_iff msg e : decode_response msg = Err (RRpc e) <-> exists d, dict_packet msg d /\ error_says d e.
Proof.
  unfold decode_response. split.
  - destruct (scan_y msg) as [[| |]|] eqn:Y; try discriminate; [destruct (decode_bencode gpr_decode msg); discriminate|].
    destruct (decode_bencode er_decode msg) as [e'|] eqn:E; [|discriminate]. intros H. assert (e' = e) by congruence. subst e'.
    apply decode_bencode_iff in E as (d & P & E); [|intros v X; unfold er_decode in X; destruct v; try discriminate; eauto].
    exists d. split; auto. destruct P as (-> & C & D). apply er_decode_iff; auto.
    rewrite <- (app_nil_r (encode (VDict d))) in Y. apply scan_y_iff in Y; auto.
  - intros (d & P & R). pose proof P as (-> & C & D).
    assert (Y : field text (bs "y") d (Some (bs "e"))) by apply R.
    rewrite <- (app_nil_r (encode (VDict d))) at 1.
    rewrite (proj2 (scan_y_iff d [] TError C D)) by auto.
    rewrite (proj2 (decode_bencode_iff er_decode (encode (VDict d)) e ltac:(intros v X; unfold er_decode in X; destruct v; try discriminate; eauto))); [reflexivity|].
    exists d. split; auto. apply er_decode_iff; auto.
Qed.
Lemma query_reply_iff msg d : dict_packet msg d ->
  (decode_response msg = Err RQuery <-> field text (bs "y") d (Some (bs "q"))).
Proof.
  intros (-> & C & D). pose proof (scan_y_iff d [] TQuery C D) as Q. rewrite app_nil_r in Q. cbn [type_text] in Q. rewrite <- Q. unfold decode_response.
  destruct (scan_y (encode (VDict d))) as [[| |]|].
  - tauto.
  - destruct (decode_bencode gpr_decode (encode (VDict d))); split; discriminate.
  - destruct (decode_bencode er_decode (encode (VDict d))); split; discriminate.
  - split; discriminate.
Qed.

Lemma prescan_fields_iff d : NoDup (map fst d) -> forall t0 y0 t y, prescan_fields d (t0, y0) = Some (t, y) <->
  field_or byte_string (bs "t") d t0 t /\ field_or (fun v y => text v (type_text y)) (bs "y") d y0 y.
Proof.
  induction d as [|[k v] d IH]; intros ND t0 y0 t y; cbn [prescan_fields fst snd].
  - rewrite !field_or_nil. split; [intros E; split; congruence|intros (-> & ->); reflexivity].
  - cbn [map fst] in ND. inversion ND as [|? ? NI ND']; subst. specialize (IH ND').
    destruct (bytes_eqb_spec k (bs "t")) as [->|N1].
    { rewrite field_or_take by auto. rewrite field_or_skip by keyneq. rewrite obind_some. split.
      - intros (x & H & E). apply IH in E as (E1 & E2). apply as_bytes_iff in H. eauto.
      - intros ((x & H & E) & T). exists x. split; [apply as_bytes_iff; auto|]. apply IH. auto. }
    destruct (bytes_eqb_spec k (bs "y")) as [->|N2].
    { rewrite (field_or_take (fun v y => text v (type_text y))) by auto. rewrite field_or_skip by keyneq. rewrite obind_some. split.
      - intros (x & H & E). apply IH in E as (E1 & E2). apply type_iff in H. eauto.
      - intros (T & (x & H & E)). exists x. split; [apply type_iff; auto|]. apply IH. auto. }
    rewrite IH, !field_or_skip by congruence. tauto.
Qed.
Lemma prescan_iff msg t y : prescan msg = Some (t, y) <->
  exists d rest, msg = encode (VDict d) ++ rest /\ canonical (VDict d) /\ (depth (VDict d) <= 2048)%nat /\ header_says d t y.
Proof.
  unfold prescan, header_says. split.
  - intros H. apply obind_some in H as ([v rest] & H1 & H). apply parse_iff in H1 as (-> & C & D). apply obind_some in H as (d & H2 & H).
    apply dict_iff in H2. red in H2. subst v. apply obind_some in H as ([t' y'] & H3 & H). apply obind_some in H as (t1 & H4 & H). apply obind_some in H as (y1 & H5 & H).
    assert (t1 = t /\ y1 = y) as (-> & ->) by (split; congruence). subst t' y'.
    apply prescan_fields_iff in H3 as (A & B); [|apply ascending_nodup, C]. apply field_or_none in A. apply field_or_none in B.
    exists d, rest. conjs; auto; try apply C.
  - intros (d & rest & -> & C & D & T & Y). rewrite parse_complete by auto. cbn [obind as_dict].
    rewrite (proj2 (prescan_fields_iff d (ascending_nodup _ (proj1 C)) None None (Some t) (Some y))); [reflexivity|].
    split; [apply field_or_none; auto|]. apply field_or_none. auto.
Qed.

(** ** Queries *)
Lemma ascii_text (s : bytes) : utf8_valid s = true -> text (VBytes s) s.
Proof. intros H. split; auto. apply utf8_valid_iff. auto. Qed.
Lemma want_text_ok w : text (VBytes (want_str w)) (want_text w).
Proof. destruct w; apply ascii_text; reflexivity. Qed.
Lemma query_encodes q : exists d, gpq_encode q = Ret (encode (VDict d)) /\ canonical (VDict d) /\ (depth (VDict d) <= 3)%nat /\ query_says d q.
Proof.
  destruct q as [txn cl nid ih ro want].
  assert (W : forall ws, Forall2 (fun v w => text v (want_text w)) (map (fun w => VBytes (want_str w)) ws) ws).
  { induction ws; constructor; auto. apply want_text_ok. }
  assert (WC : forall ws : list M_DhtMsg.want, fold_right (fun x P => canonical x /\ P) True (map (fun w => VBytes (want_str w)) ws)).
  { induction ws; cbn [map fold_right]; auto. split; auto. exact Logic.I. }
  assert (WD : forall ws : list M_DhtMsg.want, fold_right (fun x m => Nat.max (depth x) m) O (map (fun w => VBytes (want_str w)) ws) = O).
  { induction ws; cbn [map fold_right depth]; auto. }
  unfold gpq_encode. remember (gpq_value _) as v eqn:EV. unfold gpq_value in EV. cbn [gq_txn gq_client gq_node_id gq_hash gq_ro gq_want] in EV.
  match type of EV with v = VDict ?x => exists x end. rewrite <- EV.
  assert (C : canonical v).
  { subst v. destruct want, ro as [[|]|], cl; cbn [option_map opt_pair app canonical map fst snd fold_right]; conjs; auto; cbn [ascending]; conjs; auto; reflexivity. }
  assert (D : (depth v <= 3)%nat).
  { subst v. destruct want, ro as [[|]|], cl; cbn [option_map opt_pair app depth map fst snd fold_right vnat]; rewrite ?WD; cbn [Nat.max]; lia. }
  split; [apply to_bencode_ok; auto|]. split; auto. split; auto.
  unfold query_says, field. cbn [gq_txn gq_client gq_node_id gq_hash gq_ro gq_want].
  assert (FL : forall b : bool, flag (vnat (if b then 1 else 0)) b).
  { intros b. exists (if b then 1 else 0). split; [destruct b; split; reflexivity|destruct b; split; congruence]. }
  destruct want as [ws|], ro as [b|], cl as [c|]; cbn [option_map opt_pair app].
  all: conjs; try reflexivity; try (apply (FL b)); try (apply ascii_text; reflexivity).
  all: eexists; conjs; try reflexivity; cbn [lookup bytes_eqb]; try exact Logic.I.
  all: exists (map (fun w => VBytes (want_str w)) ws); split; [reflexivity|apply W].
Qed.
Lemma want_text_inj a b : want_text a = want_text b -> a = b.
Proof. destruct a, b; auto; discriminate. Qed.
Lemma want_list_fun v a b : want_list v a -> want_list v b -> a = b.
Proof.
  intros (vs & -> & F) (vs' & E & F'). assert (vs' = vs) by congruence. subst vs'. clear E. revert b F'.
  induction F as [|x w vs ws H F IH]; intros b F'; inversion F' as [|? w' ? ws' H' F'']; subst; auto. f_equal; auto.
  apply want_text_inj. eapply text_fun; eauto.
Qed.
Lemma flag_fun v a b : flag v a -> flag v b -> a = b.
Proof. intros (n & H1 & H2) (m & H3 & H4). assert (m = n) by (eapply uint_fun; eauto). subst m. destruct a, b; auto; [symmetry|]; tauto. Qed.
Lemma query_unique d q q' : query_says d q -> query_says d q' -> q = q'.
Proof.
  intros (_ & _ & T & V & R & a & A & I1 & H & W) (_ & _ & T' & V' & R' & a' & A' & I1' & H' & W').
  assert (a' = a). { apply (f_equal (fun o => match o with Some x => x | None => a end) (field_fun dict_value _ _ _ _ (fun v x y X Y => ltac:(red in X, Y; congruence)) A' A)). }
  subst a'. destruct q as [t v n h r w], q' as [t' v' n' h' r' w']. cbn [gq_txn gq_client gq_node_id gq_hash gq_ro gq_want] in *.
  pose proof (field_fun _ _ _ _ _ byte_string_fun T T'). pose proof (field_fun _ _ _ _ _ byte_string_fun V V').
  pose proof (field_fun _ _ _ _ _ byte_string_fun I1 I1'). pose proof (field_fun _ _ _ _ _ byte_string_fun H H').
  pose proof (field_fun _ _ _ _ _ flag_fun R R'). pose proof (field_fun _ _ _ _ _ want_list_fun W W'). congruence.
Qed.
