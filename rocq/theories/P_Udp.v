(** Lemmas for C_Udp. *)
From Verif Require Import Base BaseFacts S_Utf8 M_Utf8 P_Utf8 M_Net M_Util M_Compact S_Wire P_Wire P_PeerWire M_Tracker M_Udp S_Udp.

(** ** Requests *)
Lemma integers_bytes l : Forall (fun kn => snd kn < 256 ^ N.of_nat (fst kn)) l ->
  integers l (concat (map (fun kn => be_bytes (fst kn) (snd kn)) l)).
Proof.
  induction 1 as [|[k n] l H _ IH]; cbn [map concat]; constructor; auto.
  - apply be_bytes_length.
  - apply be_be_bytes. exact H.
Qed.

Lemma integers_len l s : integers l s -> length s = list_sum (map fst l).
Proof. induction 1; cbn [map fst list_sum]; [reflexivity|]. rewrite app_length. cbn [fold_right]. unfold list_sum in *. cbn. lia. Qed.

Lemma integers_fun l l' : map fst l = map fst l' -> forall s r s' r',
  integers l s -> integers l' s' -> s ++ r = s' ++ r' -> l = l' /\ s = s' /\ r = r'.
Proof.
  revert l'; induction l as [|[k n] l IH]; intros [|[k' n'] l'] E s r s' r' I I' A; try discriminate.
  - inversion I; inversion I'; subst. auto.
  - cbn in E. injection E as -> E. inversion I as [|? ? ? b rr Lb Eb I1]; subst. inversion I' as [|? ? ? b' rr' Lb' Eb' I1']; subst.
    rewrite <- !app_assoc in A. apply app_len_inj in A as [-> A]; [|congruence].
    destruct (IH _ E _ _ _ _ I1 I1' A) as (-> & -> & ->). auto.
Qed.

Lemma integers_fun' l l' s r s' r' : integers l s -> integers l' s' -> s ++ r = s' ++ r' ->
  map fst l = map fst l' -> l = l' /\ s = s' /\ r = r'.
Proof. intros I I' A E. eapply integers_fun; eauto. Qed.

Lemma connect_request_ok txn : txn < 2 ^ 32 -> connect_packet txn (connection_request txn).
Proof.
  intros H. unfold connect_packet, connection_request.
  rewrite <- (app_nil_r (be_bytes 4 txn)).
  apply (integers_bytes [(8%nat, PROTOCOL_ID); (4%nat, CONNECT_ACTION); (4%nat, txn)]).
  repeat constructor. exact H.
Qed.

Lemma segments_ok fuel data : (length data <= fuel)%nat -> options (url_segments fuel data) data.
Proof.
  revert data. induction fuel as [|f IH]; intros data L.
  - destruct data; [constructor|cbn in L; lia].
  - destruct data as [|c data]; [constructor|]. cbn [url_segments].
    set (d := c :: data) in *. assert (L0 : (0 < length d)%nat) by (subst d; cbn; lia).
    set (k := Nat.min (length d) 255).
    assert (LK : length (firstn k d) = k) by (rewrite firstn_length; lia).
    rewrite <- LK at 1.
    change (n2b 2) with x02.
    assert (G : options (x02 :: n2b (N.of_nat (length (firstn k d))) :: firstn k d ++ url_segments f (skipn k d))
                  (firstn k d ++ skipn k d)); [|rewrite firstn_skipn in G; exact G].
    constructor; [|lia].
    apply IH. rewrite skipn_length. lia.
Qed.

Lemma options_fun s d d' : options s d -> options s d' -> d = d'.
Proof.
  intros O. revert d'. induction O as [| | s d O IH | seg s d O IH L]; intros d' O'.
  - inversion O'; reflexivity.
  - inversion O'; reflexivity.
  - inversion O'; auto.
  - remember (x02 :: n2b (N.of_nat (length seg)) :: seg ++ s) as u eqn:U.
    destruct O' as [| |s1 d1 O1|seg1 s1 d1 O1 L1]; try discriminate.
    injection U as EN EA. apply (f_equal b2n) in EN. rewrite !b2n_n2b_small in EN by lia.
    apply app_len_inj in EA as [-> ->]; [|lia]. f_equal. auto.
Qed.

Lemma announce_request_ok cid txn a d : cid < 2 ^ 64 -> txn < 2 ^ 32 -> ann_ok a ->
  announce_packet cid txn a d (announce_request cid txn a d).
Proof.
  intros HC HT (LH & LP & H1 & H2 & H3 & H4 & H5 & H6).
  exists (concat (map (fun kn => be_bytes (fst kn) (snd kn)) [(8%nat, cid); (4%nat, 1); (4%nat, txn)])).
  exists (concat (map (fun kn => be_bytes (fst kn) (snd kn))
     [(8%nat, an_downloaded a); (8%nat, an_left a); (8%nat, an_uploaded a);
              (4%nat, event_number (an_event a)); (4%nat, 0); (4%nat, an_key a);
              (4%nat, an_numwant a); (2%nat, an_port a)])).
  exists (url_segments (length d) d).
  split; [|split; [|split; [|split; [|split]]]]; auto.
  - apply integers_bytes. repeat constructor; auto.
  - apply integers_bytes. repeat constructor; auto. cbn [fst snd]. destruct (an_event a); reflexivity.
  - apply segments_ok. lia.
Qed.

Lemma announce_packet_fun c t a d c' t' a' d' s : an_crypto a = an_crypto a' ->
  announce_packet c t a d s -> announce_packet c' t' a' d' s -> c = c' /\ t = t' /\ a = a' /\ d = d'.
Proof.
  intros EC (i & n & o & -> & I & LH & LP & NU & O) (i' & n' & o' & E & I' & LH' & LP' & NU' & O').
  apply (integers_fun' _ _ _ _ _ _ I I') in E as (E1 & -> & E); [|reflexivity].
  apply app_len_inj in E as [EH E]; [|congruence]. apply app_len_inj in E as [EP E]; [|congruence].
  apply (integers_fun' _ _ _ _ _ _ NU NU') in E as (E2 & -> & ->); [|reflexivity].
  assert (EV : an_event a = an_event a').
  { assert (event_number (an_event a) = event_number (an_event a')) by congruence.
    destruct (an_event a), (an_event a'); try reflexivity; discriminate. }
  repeat split; try congruence.
  - destruct a, a'; cbn in *. congruence.
  - eapply options_fun; eauto.
Qed.

Lemma connect_packet_fun t t' s : connect_packet t s -> connect_packet t' s -> t = t'.
Proof.
  intros I I'. destruct (integers_fun' _ _ s [] s [] I I' eq_refl eq_refl) as (E & _). congruence.
Qed.

(** ** Responses *)
Lemma map_err_ok {E F A} (f : E -> F) (r : res E A) a : res_map_err f r = Ok a <-> r = Ok a.
Proof. destruct r; cbn; split; congruence. Qed.
Lemma map_err_err {E F A} (f : E -> F) (r : res E A) e : res_map_err f r = Err e <-> exists e', r = Err e' /\ e = f e'.
Proof. destruct r; cbn; split; try discriminate; [intros (? & ? & ?); discriminate|intros [= <-]; eauto|intros (? & [= ->] & ->); auto]. Qed.
Lemma bind_ok {E A B} (r : res E A) (f : A -> res E B) b : res_bind r f = Ok b <-> exists a, r = Ok a /\ f a = Ok b.
Proof. destruct r; cbn; split; try discriminate; eauto. - intros (? & [= ->] & ?); auto. - intros (? & ? & _); discriminate. Qed.

Lemma get_uint_iff {F} (f : packet_error -> F) k buf n r : res_map_err f (try_get_uint k buf) = Ok (n, r) <->
  exists b, buf = b ++ r /\ length b = k /\ be b = n.
Proof. rewrite map_err_ok. apply try_get_uint_iff. Qed.

Lemma connection_response_iff s txn cid : connection_response s = Ok (txn, cid) <-> connect_reply s txn cid.
Proof.
  unfold connection_response, connect_reply. split.
  - intros H. apply bind_ok in H as ([a r] & H1 & H). apply get_uint_iff in H1 as (b1 & -> & L1 & E1).
    destruct (N.eqb_spec a CONNECT_ACTION) as [->|]; [|discriminate]. cbn [negb] in H.
    apply bind_ok in H as ([t r1] & H1 & H). apply get_uint_iff in H1 as (b2 & -> & L2 & E2).
    apply bind_ok in H as ([c r2] & H1 & H). apply get_uint_iff in H1 as (b3 & -> & L3 & E3).
    assert (t = txn /\ c = cid) as [-> ->] by (split; congruence).
    exists (b1 ++ b2 ++ b3 ++ []), r2. rewrite app_nil_r. split; [now rewrite <- !app_assoc|].
    rewrite <- (app_nil_r b3). repeat (constructor; auto).
  - intros (b & rest & -> & I). inversion I as [|? ? ? b1 r1 L1 E1 I1]; subst.
    inversion I1 as [|? ? ? b2 r2 L2 E2 I2]; subst. inversion I2 as [|? ? ? b3 r3 L3 E3 I3]; subst.
    inversion I3; subst. rewrite <- !app_assoc.
    apply bind_ok. exists (CONNECT_ACTION, b2 ++ b3 ++ [] ++ rest). split; [apply get_uint_iff; eauto|].
    cbn [negb N.eqb CONNECT_ACTION]. apply bind_ok. eexists (_, _). split; [apply get_uint_iff; eauto|].
    apply bind_ok. eexists (_, _). split; [apply get_uint_iff; eauto|reflexivity].
Qed.

Lemma try_get_v4_iff buf a r : try_get_v4 buf = Ok (a, r) <-> exists w, buf = w ++ r /\ compact a w /\ is_v4 a.
Proof.
  unfold try_get_v4. split.
  - intros H. apply bind_ok in H as ([n r1] & H1 & H). apply try_get_uint_iff in H1 as (b1 & -> & L1 & E1).
    apply bind_ok in H as ([p r2] & H1 & H). apply try_get_uint_iff in H1 as (b2 & -> & L2 & E2).
    assert (a = mkSA (V4 n) p) by congruence. assert (r2 = r) by congruence. subst a r2.
    exists (b1 ++ b2). rewrite <- app_assoc. split; auto. split; [|exact I]. exists b1, b2. repeat split; auto.
  - intros (w & -> & (h & p & -> & A & L & E) & V). destruct a as [[n|n] port]; [|destruct V].
    cbn [sa_ip sa_port address_bytes] in *. destruct A as [LA EA]. rewrite <- app_assoc.
    apply bind_ok. eexists (_, _). split; [apply try_get_uint_iff; eauto|].
    apply bind_ok. eexists (_, _). split; [apply try_get_uint_iff; eauto|reflexivity].
Qed.
Lemma try_get_v6_iff buf a r : try_get_v6 buf = Ok (a, r) <-> exists w, buf = w ++ r /\ compact a w /\ ~ is_v4 a.
Proof.
  unfold try_get_v6. split.
  - intros H. apply bind_ok in H as ([n r1] & H1 & H). apply try_get_uint_iff in H1 as (b1 & -> & L1 & E1).
    apply bind_ok in H as ([p r2] & H1 & H). apply try_get_uint_iff in H1 as (b2 & -> & L2 & E2).
    assert (a = mkSA (V6 n) p) by congruence. assert (r2 = r) by congruence. subst a r2.
    exists (b1 ++ b2). rewrite <- app_assoc. split; auto. split; [|intros []]. exists b1, b2. repeat split; auto.
  - intros (w & -> & (h & p & -> & A & L & E) & V). destruct a as [[n|n] port]; [destruct V; exact I|].
    cbn [sa_ip sa_port address_bytes] in *. destruct A as [LA EA]. rewrite <- app_assoc.
    apply bind_ok. eexists (_, _). split; [apply try_get_uint_iff; eauto|].
    apply bind_ok. eexists (_, _). split; [apply try_get_uint_iff; eauto|reflexivity].
Qed.

Lemma compact_nonempty a w : compact a w -> w <> [].
Proof. intros (h & p & -> & _ & L & _) E. apply app_eq_nil in E as [_ ->]. discriminate. Qed.

Section All.
Context (get : bytes -> res packet_error (sockaddr * bytes)) (P : sockaddr -> Prop).
Hypothesis get_iff : forall buf a r, get buf = Ok (a, r) <-> exists w, buf = w ++ r /\ compact a w /\ P a.

Lemma all_go_iff fuel buf l : (length buf <= fuel)%nat ->
  (try_get_all_go get fuel buf = Ok l <-> exists ws, buf = concat ws /\ Forall2 compact l ws /\ Forall P l).
Proof using get_iff.
  revert buf l. induction fuel as [|f IH]; intros buf l L.
  - destruct buf; [|cbn in L; lia]. cbn [try_get_all_go]. split.
    + intros [= <-]. exists []. auto.
    + intros (ws & E & F & FP). destruct F as [|a w l ws C F]; [reflexivity|].
      symmetry in E. cbn in E. apply app_eq_nil in E as [-> _]. now apply compact_nonempty in C.
  - destruct buf as [|c buf]; cbn [try_get_all_go].
    + split.
      * intros [= <-]. exists []. auto.
      * intros (ws & E & F & FP). destruct F as [|a w l ws C F]; [reflexivity|].
        symmetry in E. cbn in E. apply app_eq_nil in E as [-> _]. now apply compact_nonempty in C.
    + split.
      * intros H. apply bind_ok in H as ([x r] & H1 & H). apply bind_ok in H as (xs & H2 & H).
        assert (l = x :: xs) by congruence. subst l. apply get_iff in H1 as (w & E & C & Px).
        apply IH in H2 as (ws & -> & F & FP).
        2:{ apply (f_equal (@length _)) in E. rewrite app_length in E. pose proof (compact_nonempty _ _ C).
            destruct w; [congruence|]. cbn [length] in *. lia. }
        exists (w :: ws). cbn [concat]. auto.
      * intros (ws & E & F & FP). destruct F as [|a w l ws C F]; [discriminate|]. cbn [concat] in E.
        inversion FP as [|? ? Pa FP']; subst. apply bind_ok. exists (a, concat ws). split; [apply get_iff; eauto|].
        apply bind_ok. exists l. split; [|reflexivity]. apply IH; eauto.
        apply (f_equal (@length _)) in E. rewrite app_length in E. pose proof (compact_nonempty _ _ C).
        destruct w; [congruence|]. cbn [length] in *. lia.
Qed.
End All.

Lemma addrs_iff (v6 : bool) buf l :
  (if v6 then try_get_all try_get_v6 buf else try_get_all try_get_v4 buf) = Ok l <->
  exists ws, buf = concat ws /\ Forall2 compact l ws /\ Forall (fun a => if v6 then ~ is_v4 a else is_v4 a) l.
Proof.
  destruct v6; apply all_go_iff; auto; [apply try_get_v6_iff|apply try_get_v4_iff].
Qed.

Lemma udp_announce_response_iff v6 s txn r : udp_announce_response v6 s = Ok (txn, r) <-> announce_reply v6 s txn r.
Proof.
  unfold udp_announce_response, announce_reply. split.
  - intros H. apply bind_ok in H as ([a r0] & H1 & H). apply get_uint_iff in H1 as (b1 & -> & L1 & E1).
    destruct (N.eqb_spec a ANNOUNCE_ACTION) as [->|]; [|discriminate]. cbn [negb] in H.
    apply bind_ok in H as ([t r1] & H1 & H). apply get_uint_iff in H1 as (b2 & -> & L2 & E2).
    apply bind_ok in H as ([iv r2] & H1 & H). apply get_uint_iff in H1 as (b3 & -> & L3 & E3).
    apply bind_ok in H as ([le r3] & H1 & H). apply get_uint_iff in H1 as (b4 & -> & L4 & E4).
    apply bind_ok in H as ([se r4] & H1 & H). apply get_uint_iff in H1 as (b5 & -> & L5 & E5).
    apply bind_ok in H as (addrs & H1 & H). apply map_err_ok in H1. apply addrs_iff in H1 as (ws & -> & F & FP).
    apply Ok_inj in H.
    assert (t = txn) by congruence. assert (r = mkResp iv (map peer_of addrs) None None None None None (Some le) (Some se)) by congruence.
    clear H. subst t r. cbn [ar_interval].
    exists (b1 ++ b2 ++ b3 ++ b4 ++ b5 ++ []), addrs, ws, le, se. split; [now rewrite app_nil_r, <- !app_assoc|].
    split; [repeat (constructor; auto)|]. auto.
  - intros (b & addrs & ws & le & se & -> & I & F & FP & ER). revert I. generalize (ar_interval r) ER. intros iv -> I.
    clear ER. inversion I as [|? ? ? b1 r1 L1 E1 I1]; subst.
    inversion I1 as [|? ? ? b2 r2 L2 E2 I2]; subst. inversion I2 as [|? ? ? b3 r3 L3 E3 I3]; subst.
    inversion I3 as [|? ? ? b4 r4 L4 E4 I4]; subst. inversion I4 as [|? ? ? b5 r5 L5 E5 I5]; subst.
    inversion I5; subst. rewrite <- !app_assoc, app_nil_l.
    apply bind_ok. eexists (_, _). split; [apply get_uint_iff; eauto|]. cbn [negb N.eqb ANNOUNCE_ACTION Pos.eqb].
    apply bind_ok. eexists (_, _). split; [apply get_uint_iff; eauto|].
    apply bind_ok. eexists (_, _). split; [apply get_uint_iff; eauto|].
    apply bind_ok. eexists (_, _). split; [apply get_uint_iff; eauto|].
    apply bind_ok. eexists (_, _). split; [apply get_uint_iff; eauto|].
    apply bind_ok. exists addrs. split; [apply map_err_ok, addrs_iff; eauto|reflexivity].
Qed.

Lemma first_word_get s a : first_word s a <-> exists r, try_get_uint 4 s = Ok (a, r).
Proof.
  split.
  - intros (b & r & -> & L & E). exists r. apply try_get_uint_iff. eauto.
  - intros (r & H). apply try_get_uint_iff in H as (b & -> & L & E). exists b, r. auto.
Qed.

Section FromBytes.
Context {T : Type} (parser : bytes -> res udp_error T).
Hypothesis parser_err : forall s, first_word s 3 -> forall t, parser s <> Ok t.

Lemma response_success s t : response_from_bytes parser s = Ok (Success t) <-> parser s = Ok t.
Proof using parser_err.
  unfold response_from_bytes. destruct (try_get_uint 4 s) as [[a v]|e] eqn:G.
  - destruct (N.eqb_spec a ERROR_ACTION) as [->|].
    + split.
      * intros H. apply bind_ok in H as ([? ?] & _ & H). discriminate.
      * intros H. exfalso. apply (parser_err s) with (t := t); auto. apply first_word_get. eauto.
    + rewrite bind_ok. split; [intros (? & H & [= ->]); auto|eauto].
  - rewrite bind_ok. split; [intros (? & H & [= ->]); auto|eauto].
Qed.

Lemma response_failure s m : response_from_bytes parser s = Ok (Failure m) <->
  exists raw, error_reply s raw /\ m = from_utf8_lossy raw.
Proof using parser.
  clear parser_err.
  unfold response_from_bytes, error_reply. split.
  - destruct (try_get_uint 4 s) as [[a v]|e] eqn:G.
    + destruct (N.eqb_spec a ERROR_ACTION) as [->|].
      * intros H. apply bind_ok in H as ([t r] & H1 & H). apply get_uint_iff in H1 as (b & -> & L & E).
        apply try_get_uint_iff in G as (b0 & -> & L0 & E0). exists r. split; [|congruence].
        exists (b0 ++ b ++ []), t. rewrite app_nil_r, <- app_assoc. split; auto.
        rewrite <- (app_nil_r b). repeat (constructor; auto).
      * intros H. apply bind_ok in H as (? & _ & H). discriminate.
    + intros H. apply bind_ok in H as (? & _ & H). discriminate.
  - intros (raw & (b & txn & -> & I) & ->). inversion I as [|? ? ? b1 r1 L1 E1 I1]; subst.
    inversion I1 as [|? ? ? b2 r2 L2 E2 I2]; subst. inversion I2; subst. rewrite <- !app_assoc, app_nil_l.
    rewrite (proj2 (try_get_uint_iff 4 _ 3 (b2 ++ raw))) by eauto. cbn [N.eqb ERROR_ACTION Pos.eqb].
    rewrite (proj2 (get_uint_iff UPacketLen 4 (b2 ++ raw) (be b2) raw)) by eauto. reflexivity.
Qed.
End FromBytes.

Lemma first_word_fun s a b : first_word s a -> first_word s b -> a = b.
Proof. rewrite !first_word_get. intros [r H] [r' H']. congruence. Qed.

Lemma connection_response_word s x : connection_response s = Ok x -> first_word s 0.
Proof.
  unfold connection_response. intros H. apply bind_ok in H as ([a r] & H1 & H). apply map_err_ok in H1.
  destruct (N.eqb_spec a CONNECT_ACTION) as [->|]; [|discriminate]. apply first_word_get. eauto.
Qed.
Lemma announce_response_word v6 s x : udp_announce_response v6 s = Ok x -> first_word s 1.
Proof.
  unfold udp_announce_response. intros H. apply bind_ok in H as ([a r] & H1 & H). apply map_err_ok in H1.
  destruct (N.eqb_spec a ANNOUNCE_ACTION) as [->|]; [|discriminate]. apply first_word_get. eauto.
Qed.

Lemma connect_success s t c : response_from_bytes connection_response s = Ok (Success (t, c)) <-> connect_reply s t c.
Proof.
  rewrite response_success; [apply connection_response_iff|].
  intros s0 W x H. apply connection_response_word in H. pose proof (first_word_fun _ _ _ W H). discriminate.
Qed.
Lemma announce_success v6 s t r : response_from_bytes (udp_announce_response v6) s = Ok (Success (t, r)) <-> announce_reply v6 s t r.
Proof.
  rewrite response_success; [apply udp_announce_response_iff|].
  intros s0 W x H. apply announce_response_word in H. pose proof (first_word_fun _ _ _ W H). discriminate.
Qed.

(** Which errors: a wrong action is named, everything else is a bad length. *)
Lemma short_uint k s e : try_get_uint k s = Err e -> e = Short.
Proof. unfold try_get_uint. destruct (Nat.leb k (length s)); congruence. Qed.
Lemma v4_short s e : try_get_v4 s = Err e -> e = Short.
Proof.
  unfold try_get_v4. destruct (try_get_uint 4 s) as [[a r]|] eqn:E; cbn [res_bind]; [|intros [= <-]; eapply short_uint; eauto].
  destruct (try_get_uint 2 r) as [[p r']|] eqn:E'; cbn [res_bind]; [discriminate|intros [= <-]; eapply short_uint; eauto].
Qed.
Lemma v6_short s e : try_get_v6 s = Err e -> e = Short.
Proof.
  unfold try_get_v6. destruct (try_get_uint 16 s) as [[a r]|] eqn:E; cbn [res_bind]; [|intros [= <-]; eapply short_uint; eauto].
  destruct (try_get_uint 2 r) as [[p r']|] eqn:E'; cbn [res_bind]; [discriminate|intros [= <-]; eapply short_uint; eauto].
Qed.
Lemma all_short {T} (get : bytes -> res packet_error (T * bytes)) :
  (forall s e, get s = Err e -> e = Short) -> forall f s e, try_get_all_go get f s = Err e -> e = Short.
Proof.
  intros G. induction f as [|f IH]; intros [|c s] e; cbn [try_get_all_go]; try discriminate; try congruence.
  destruct (get (c :: s)) as [[x r]|e'] eqn:E; cbn [res_bind]; [|intros [= <-]; eauto].
  destruct (try_get_all_go get f r) eqn:E'; cbn [res_bind]; [discriminate|intros [= <-]; eauto].
Qed.

Ltac short_step :=
  match goal with
  | |- context [res_bind (res_map_err UPacketLen ?g) _] =>
      let E := fresh "E" in destruct g as [[? ?]|] eqn:E; cbn [res_map_err res_bind];
      [|intros [= <-]; rewrite (short_uint _ _ _ E); auto]
  end.

Lemma connect_errors s e : response_from_bytes connection_response s = Err e ->
  e = UPacketLen Short \/ exists a, first_word s a /\ a <> 0 /\ a <> 3 /\ e = UBadAction 0 a.
Proof.
  unfold response_from_bytes, connection_response. destruct (try_get_uint 4 s) as [[a v]|x] eqn:G.
  - destruct (N.eqb_spec a ERROR_ACTION) as [->|NE].
    + short_step. discriminate.
    + cbn [res_map_err res_bind]. destruct (N.eqb_spec a CONNECT_ACTION) as [->|NC]; cbn [negb].
      * short_step. short_step. discriminate.
      * cbn [res_bind]. intros [= <-]. right. exists a. split; [apply first_word_get; eauto|]. auto.
  - rewrite (short_uint _ _ _ G). cbn [res_map_err res_bind]. intros [= <-]. auto.
Qed.
Lemma announce_errors v6 s e : response_from_bytes (udp_announce_response v6) s = Err e ->
  e = UPacketLen Short \/ exists a, first_word s a /\ a <> 1 /\ a <> 3 /\ e = UBadAction 1 a.
Proof.
  unfold response_from_bytes, udp_announce_response. destruct (try_get_uint 4 s) as [[a v]|x] eqn:G.
  - destruct (N.eqb_spec a ERROR_ACTION) as [->|NE].
    + short_step. discriminate.
    + cbn [res_map_err res_bind]. destruct (N.eqb_spec a ANNOUNCE_ACTION) as [->|NC]; cbn [negb].
      * do 4 short_step.
        match goal with |- context [if v6 then ?x else ?y] =>
          assert (SH : forall e', (if v6 then x else y) = Err e' -> e' = Short) end.
        { destruct v6; apply all_short; [apply v6_short|apply v4_short]. }
        match goal with |- context [if v6 then ?x else ?y] => destruct (if v6 then x else y) end.
        -- discriminate.
        -- cbn. intros [= <-]. rewrite (SH _ eq_refl). auto.
      * cbn [res_bind]. intros [= <-]. right. exists a. split; [apply first_word_get; eauto|]. auto.
  - rewrite (short_uint _ _ _ G). cbn [res_map_err res_bind]. intros [= <-]. auto.
Qed.
Lemma connect_bad_action s a : first_word s a -> a <> 0 -> a <> 3 -> response_from_bytes connection_response s = Err (UBadAction 0 a).
Proof.
  intros F N0 N3. apply first_word_get in F. destruct F as [v F]. unfold response_from_bytes, connection_response. rewrite F. cbn [res_map_err res_bind].
  destruct (N.eqb_spec a ERROR_ACTION) as [->|_]; [contradiction|]. destruct (N.eqb_spec a CONNECT_ACTION) as [->|_]; [contradiction|]. reflexivity.
Qed.
Lemma announce_bad_action v6 s a : first_word s a -> a <> 1 -> a <> 3 -> response_from_bytes (udp_announce_response v6) s = Err (UBadAction 1 a).
Proof.
  intros F N1 N3. apply first_word_get in F. destruct F as [v F]. unfold response_from_bytes, udp_announce_response. rewrite F. cbn [res_map_err res_bind].
  destruct (N.eqb_spec a ERROR_ACTION) as [->|_]; [contradiction|]. destruct (N.eqb_spec a ANNOUNCE_ACTION) as [->|_]; [contradiction|]. reflexivity.
Qed.
