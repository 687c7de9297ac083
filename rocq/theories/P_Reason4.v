From Verif Require Import Base BaseFacts S_Bencode M_Utf8 M_Net M_Util M_Session M_Tracker M_Udp M_Http M_Announce S_Wire S_Udp S_UdpSession S_Http S_Announce P_Wire P_Udp P_UdpSession P_Http P_Announce S_Reason4.

Ltac len := cbn [length] in *; repeat rewrite app_length in *; cbn [length] in *.
Lemma word_len s a : first_word s a -> (4 <= length s)%nat.
Proof. intros (b & r & -> & L & _). len. lia. Qed.
Lemma word_ex s : (4 <= length s)%nat -> exists a r, try_get_uint 4 s = Ok (a, r) /\ length r = (length s - 4)%nat.
Proof. intros L. unfold try_get_uint. destruct (Nat.leb_spec 4 (length s)); [|lia]. do 2 eexists. split; [reflexivity|]. apply skipn_length. Qed.
Lemma error_reply_word s raw : error_reply s raw -> first_word s 3 /\ (8 <= length s)%nat.
Proof.
  intros (b & txn & -> & I). inversion I as [|k n l b1 r L E I1]; subst. inversion I1 as [|k n l b2 r2 L2 E2 I2]; subst. inversion I2; subst. split; [|len; lia].
  exists b1, ((b2 ++ []) ++ raw). rewrite <- app_assoc. auto.
Qed.
Lemma connect_reply_word s txn cid : connect_reply s txn cid -> first_word s 0 /\ (16 <= length s)%nat.
Proof.
  intros (b & rest & -> & I). inversion I as [|k n l b1 r L E I1]; subst. inversion I1 as [|k n l b2 r2 L2 E2 I2]; subst. inversion I2 as [|k n l b3 r3 L3 E3 I3]; subst. inversion I3; subst.
  split; [|len; lia]. exists b1, ((b2 ++ b3 ++ []) ++ rest). rewrite <- app_assoc. auto.
Qed.
Lemma compacts_len (v6 : bool) addrs ws : Forall2 compact addrs ws -> Forall (fun a => if v6 then ~ is_v4 a else is_v4 a) addrs ->
  length (concat ws) = ((if v6 then 18 else 6) * length ws)%nat.
Proof.
  induction 1 as [|a w addrs ws (h & p & -> & A & P & _) F IH]; intros G; [destruct v6; reflexivity|]. inversion G; subst. cbn [concat length]. rewrite !app_length, IH by assumption. rewrite P.
  unfold is_v4, address_bytes in *. destruct (sa_ip a); destruct v6; try tauto; destruct A as (-> & _); lia.
Qed.
Lemma announce_reply_word v6 s txn r : announce_reply v6 s txn r -> first_word s 1 /\ (20 <= length s)%nat /\ ((length s - 20) mod (if v6 then 18 else 6) = 0)%nat.
Proof.
  intros (b & addrs & ws & le & se & -> & I & F & G & _).
  inversion I as [|k n l b1 r1 L E I1]; subst. inversion I1 as [|k n l b2 r2 L2 E2 I2]; subst. inversion I2 as [|k n l b3 r3 L3 E3 I3]; subst.
  inversion I3 as [|k n l b4 r4 L4 E4 I4]; subst. inversion I4 as [|k n l b5 r5 L5 E5 I5]; subst. inversion I5; subst.
  split; [exists b1; eexists; rewrite <- app_assoc; split; [reflexivity|auto]|]. pose proof (compacts_len v6 _ _ F G) as C. len. split; [lia|].
  replace (_ - 20)%nat with (length (concat ws)) by lia. rewrite C, Nat.mul_comm. apply Nat.mod_mul. destruct v6; lia.
Qed.
Lemma get_v4_len s : (6 <= length s)%nat -> exists x r, try_get_v4 s = Ok (x, r) /\ length r = (length s - 6)%nat.
Proof.
  intros L. unfold try_get_v4, try_get_uint. destruct (Nat.leb_spec 4 (length s)); [|lia]. cbn [res_bind]. rewrite skipn_length. destruct (Nat.leb_spec 2 (length s - 4)); [|lia]. cbn [res_bind].
  do 2 eexists. split; [reflexivity|]. rewrite !skipn_length. lia.
Qed.
Lemma get_v6_len s : (18 <= length s)%nat -> exists x r, try_get_v6 s = Ok (x, r) /\ length r = (length s - 18)%nat.
Proof.
  intros L. unfold try_get_v6, try_get_uint. destruct (Nat.leb_spec 16 (length s)); [|lia]. cbn [res_bind]. rewrite skipn_length. destruct (Nat.leb_spec 2 (length s - 16)); [|lia]. cbn [res_bind].
  do 2 eexists. split; [reflexivity|]. rewrite !skipn_length. lia.
Qed.
Lemma get_all_len {T} (get : bytes -> res packet_error (T * bytes)) k : (0 < k)%nat ->
  (forall s, (k <= length s)%nat -> exists x r, get s = Ok (x, r) /\ length r = (length s - k)%nat) ->
  forall q f s, length s = (q * k)%nat -> (length s <= f)%nat -> exists xs, try_get_all_go get f s = Ok xs.
Proof.
  intros K G. induction q as [|q IH]; intros f s L F.
  - destruct s; [|discriminate L]. destruct f; cbn; eauto.
  - destruct s as [|c s]; [cbn in L; lia|]. destruct f as [|f]; [cbn in F; lia|]. cbn [try_get_all_go].
    destruct (G (c :: s)) as (x & r & -> & LR); [lia|]. cbn [res_bind]. destruct (IH f r) as (xs & ->); [lia|lia|]. cbn [res_bind]. eauto.
Qed.
Lemma get_all_ok (v6 : bool) s : (length s mod (if v6 then 18 else 6) = 0)%nat -> exists xs, (if v6 then try_get_all try_get_v6 s else try_get_all try_get_v4 s) = Ok xs.
Proof.
  intros M. apply Nat.mod_divide in M; [|destruct v6; lia]. destruct M as (q & M). unfold try_get_all. destruct v6.
  - eapply (get_all_len try_get_v6 18); [lia|apply get_v6_len|exact M|lia].
  - eapply (get_all_len try_get_v4 6); [lia|apply get_v4_len|exact M|lia].
Qed.

Lemma connect_bad s a : first_word s a -> a <> 0 -> a <> 3 -> response_from_bytes connection_response s = Err (UBadAction 0 a).
Proof.
  intros W A B. apply first_word_get in W. destruct W as (r & W). unfold response_from_bytes, connection_response. rewrite W.
  destruct (N.eqb_spec a ERROR_ACTION) as [E|_]; [destruct (B E)|]. cbn [res_map_err res_bind]. destruct (N.eqb_spec a CONNECT_ACTION) as [E|_]; [destruct (A E)|]. reflexivity.
Qed.
Lemma announce_bad v6 s a : first_word s a -> a <> 1 -> a <> 3 -> response_from_bytes (udp_announce_response v6) s = Err (UBadAction 1 a).
Proof.
  intros W A B. apply first_word_get in W. destruct W as (r & W). unfold response_from_bytes, udp_announce_response. rewrite W.
  destruct (N.eqb_spec a ERROR_ACTION) as [E|_]; [destruct (B E)|]. cbn [res_map_err res_bind]. destruct (N.eqb_spec a ANNOUNCE_ACTION) as [E|_]; [destruct (A E)|]. reflexivity.
Qed.
Lemma error_parse {T} (parser : bytes -> res udp_error T) s : first_word s 3 -> (8 <= length s)%nat -> exists m, response_from_bytes parser s = Ok (Failure m).
Proof.
  intros W L. apply first_word_get in W. destruct W as (r & W). unfold response_from_bytes. rewrite W. change (3 =? ERROR_ACTION) with true. cbv iota.
  assert (LR : (4 <= length r)%nat). { apply try_get_uint_iff in W. destruct W as (b & -> & LB & _). len. lia. }
  destruct (word_ex r LR) as (x & r' & -> & _). cbn [res_map_err res_bind]. eauto.
Qed.
Ltac word1 L x r E LR := match goal with |- context [try_get_uint 4 ?s] => destruct (word_ex s L) as (x & r & E & LR); rewrite E; cbn [res_map_err res_bind] end.
Lemma connect_parse s : first_word s 0 -> (16 <= length s)%nat -> exists y, response_from_bytes connection_response s = Ok (Success y).
Proof.
  intros W L. apply first_word_get in W. destruct W as (r & W). unfold response_from_bytes, connection_response. rewrite W. change (0 =? ERROR_ACTION) with false. cbv iota.
  assert (LR : (12 <= length r)%nat). { apply try_get_uint_iff in W. destruct W as (b & -> & LB & _). len. lia. }
  cbn [res_map_err res_bind]. change (negb (0 =? CONNECT_ACTION)) with false. cbv iota.
  destruct (word_ex r ltac:(lia)) as (x & r1 & -> & L1). cbn [res_map_err res_bind]. unfold try_get_uint. destruct (Nat.leb_spec 8 (length r1)); [|lia]. cbn [res_map_err res_bind]. eauto.
Qed.
Lemma announce_parse (v6 : bool) s : first_word s 1 -> (20 <= length s)%nat -> ((length s - 20) mod (if v6 then 18 else 6) = 0)%nat ->
  exists y, response_from_bytes (udp_announce_response v6) s = Ok (Success y).
Proof.
  intros W L M. apply first_word_get in W. destruct W as (r & W). unfold response_from_bytes, udp_announce_response. rewrite W. change (1 =? ERROR_ACTION) with false. cbv iota.
  assert (LR : length r = (length s - 4)%nat). { apply try_get_uint_iff in W. destruct W as (b & -> & LB & _). len. lia. }
  cbn [res_map_err res_bind]. change (negb (1 =? ANNOUNCE_ACTION)) with false. cbv iota.
  destruct (word_ex r ltac:(lia)) as (x1 & r1 & -> & L1). cbn [res_map_err res_bind].
  destruct (word_ex r1 ltac:(lia)) as (x2 & r2 & -> & L2). cbn [res_map_err res_bind].
  destruct (word_ex r2 ltac:(lia)) as (x3 & r3 & -> & L3). cbn [res_map_err res_bind].
  destruct (word_ex r3 ltac:(lia)) as (x4 & r4 & -> & L4). cbn [res_map_err res_bind].
  destruct (get_all_ok v6 r4) as (xs & E); [replace (length r4) with (length s - 20)%nat by lia; exact M|]. rewrite E. cbn [res_map_err res_bind]. eauto.
Qed.

Lemma connect_short v6 txn s : response_from_bytes connection_response s = Err (UPacketLen Short) <-> truncated (ToConnect txn) v6 s.
Proof.
  split.
  - intros E. destruct (Nat.lt_ge_cases (length s) 4) as [L|L]; [left; exact L|]. right. destruct (word_ex s L) as (a & r & G & _).
    assert (W : first_word s a) by (apply first_word_get; eauto). destruct (N.eq_dec a 3) as [->|N3].
    { left. split; [exact W|]. destruct (Nat.lt_ge_cases (length s) 8) as [L8|L8]; [exact L8|]. destruct (error_parse connection_response s W L8) as (m & E'). congruence. }
    right. destruct (N.eq_dec a 0) as [->|N0].
    { split; [exact W|]. destruct (Nat.lt_ge_cases (length s) 16) as [L8|L8]; [exact L8|]. destruct (connect_parse s W L8) as (m & E'). congruence. }
    rewrite (connect_bad s a W N0 N3) in E. discriminate E.
  - intros T. destruct (response_from_bytes connection_response s) as [[[t c]|m]|e] eqn:E.
    + exfalso. apply connect_success in E. apply connect_reply_word in E. destruct E as (W & L). destruct T as [T|[(T & _)|(_ & T)]]; [lia| |lia]. pose proof (first_word_fun _ _ _ W T). discriminate.
    + exfalso. apply response_failure in E. destruct E as (raw & E & _). apply error_reply_word in E. destruct E as (W & L). destruct T as [T|[(_ & T)|(T & _)]]; [lia|lia|]. pose proof (first_word_fun _ _ _ W T). discriminate.
    + apply connect_errors in E. destruct E as [->|(a & W & A & B & ->)]; [reflexivity|]. exfalso. pose proof (word_len _ _ W). destruct T as [T|[(T & _)|(T & _)]]; [lia| |]; apply (first_word_fun _ _ _ W) in T; auto.
Qed.
Lemma announce_short v6 txn x s : response_from_bytes (udp_announce_response v6) s = Err (UPacketLen Short) <-> truncated (ToAnnounce txn x) v6 s.
Proof.
  split.
  - intros E. destruct (Nat.lt_ge_cases (length s) 4) as [L|L]; [left; exact L|]. right. destruct (word_ex s L) as (a & r & G & _).
    assert (W : first_word s a) by (apply first_word_get; eauto). destruct (N.eq_dec a 3) as [->|N3].
    { left. split; [exact W|]. destruct (Nat.lt_ge_cases (length s) 8) as [L8|L8]; [exact L8|]. destruct (error_parse (udp_announce_response v6) s W L8) as (m & E'). congruence. }
    right. destruct (N.eq_dec a 1) as [->|N0].
    { split; [exact W|]. destruct (Nat.lt_ge_cases (length s) 20) as [L8|L8]; [left; exact L8|]. right. intros M. destruct (announce_parse v6 s W L8 M) as (m & E'). congruence. }
    rewrite (announce_bad v6 s a W N0 N3) in E. discriminate E.
  - intros T. destruct (response_from_bytes (udp_announce_response v6) s) as [[[t c]|m]|e] eqn:E.
    + exfalso. apply announce_success in E. apply announce_reply_word in E. destruct E as (W & L & M). destruct T as [T|[(T & _)|(_ & [T|T])]]; [lia| |lia|auto]. pose proof (first_word_fun _ _ _ W T). discriminate.
    + exfalso. apply response_failure in E. destruct E as (raw & E & _). apply error_reply_word in E. destruct E as (W & L). destruct T as [T|[(_ & T)|(T & _)]]; [lia|lia|]. pose proof (first_word_fun _ _ _ W T). discriminate.
    + apply announce_errors in E. destruct E as [->|(a & W & A & B & ->)]; [reflexivity|]. exfalso. pose proof (word_len _ _ W). destruct T as [T|[(T & _)|(T & _)]]; [lia| |]; apply (first_word_fun _ _ _ W) in T; auto.
Qed.

Lemma connect_misfit v6 txn d y : misfit v6 d (ToConnect txn) y <->
  match (let? r := response_from_bytes connection_response d in response_ok r) with Err e => e = y | Ok (got, _) => got <> txn /\ y = UXactionMismatch txn got end.
Proof.
  split.
  - intros M. inversion M as [w raw E|w T|t x W A B|t e x W A B|t t' cid R NE|]; subst.
    + rewrite (proj2 (response_failure connection_response d _) (ex_intro _ raw (conj E eq_refl))). reflexivity.
    + rewrite (proj2 (connect_short v6 txn d) T). reflexivity.
    + rewrite (connect_bad d x W A B). reflexivity.
    + apply connect_success in R. rewrite R. cbn [res_bind response_ok]. auto.
  - destruct (response_from_bytes connection_response d) as [[[t c]|m]|e] eqn:E; cbn [res_bind response_ok].
    + intros (NE & ->). apply connect_success in E. eapply mf_connect_txn; eauto.
    + intros <-. apply response_failure in E. destruct E as (raw & E & ->). now apply mf_failure.
    + intros <-. pose proof E as E'. apply connect_errors in E. destruct E as [->|(a & W & A & B & ->)]; [apply mf_length; now apply connect_short|now apply mf_connect].
Qed.
Lemma announce_misfit v6 txn x d y : misfit v6 d (ToAnnounce txn x) y <->
  match (let? r := response_from_bytes (udp_announce_response v6) d in response_ok r) with Err e => e = y | Ok (got, _) => got <> txn /\ y = UXactionMismatch txn got end.
Proof.
  split.
  - intros M. inversion M as [w raw E|w T|t x0 W A B|t e x0 W A B| |t e t' cid R NE]; subst.
    + rewrite (proj2 (response_failure (udp_announce_response v6) d _) (ex_intro _ raw (conj E eq_refl))). reflexivity.
    + rewrite (proj2 (announce_short v6 txn x d) T). reflexivity.
    + rewrite (announce_bad v6 d x0 W A B). reflexivity.
    + apply announce_success in R. rewrite R. cbn [res_bind response_ok]. auto.
  - destruct (response_from_bytes (udp_announce_response v6) d) as [[[t c]|m]|e] eqn:E; cbn [res_bind response_ok].
    + intros (NE & ->). apply announce_success in E. eapply mf_announce_txn; eauto.
    + intros <-. apply response_failure in E. destruct E as (raw & E & ->). now apply mf_failure.
    + intros <-. pose proof E as E'. apply announce_errors in E. destruct E as [->|(a & W & A & B & ->)]; [apply mf_length; now apply (announce_short v6 txn x)|now apply mf_announce].
Qed.
