From Verif Require Import Base BaseFacts S_Utf8 M_Utf8 P_Utf8 S_Magnet M_Net M_IpText P_IpText M_Util M_Types M_Bencode M_Torrent M_Extensions M_Messages M_Peer M_Session M_Tracker M_SockText M_Udp M_Http M_Announce M_Mse M_DhtMsg M_Template S_Download P_Bencode M_Log S_Log P_Log P_LogRead P_LogMsg P_LogReason S_LogReason P_LogReason2.
Lemma dec_alone a b : dec a = dec b -> a = b.
Proof. intros E. apply (dec_app a b [] []); auto; try exact I. now rewrite !app_nil_r. Qed.
Lemma hex_app a b x y : hex_end x -> hex_end y -> hex a ++ x = hex b ++ y -> a = b /\ x = y.
Proof. intros X Y E. pose proof (hex_read a x X) as A. pose proof (hex_read b y Y) as B. rewrite E in A. destruct (take_run 16 _). destruct A as [<- <-], B as [<- <-]. auto. Qed.
Lemma hex_alone a b : hex a = hex b -> a = b.
Proof. intros E. apply (hex_app a b [] []); auto; try exact I. now rewrite !app_nil_r. Qed.
Lemma dec_not n c x y : is_digit c = false -> dec n ++ x <> c :: y.
Proof.
  intros C E.
  pose proof (dec_digits n) as F. destruct (dec n) as [|b l] eqn:D.
  - exfalso. exact (dec_nonnil n D).
  - injection E as -> _. inversion F; subst. congruence.
Qed.
Lemma ih_app : forall a b x y, length a = length b -> show_info_hash a ++ x = show_info_hash b ++ y -> a = b /\ x = y.
Proof.
  induction a as [|p a IH]; intros [|q b] x y L E; try discriminate L; [auto|]. cbn [show_info_hash flat_map app] in E. injection E as E1 E2 E3.
  apply IH in E3 as [-> ->]; [|now injection L]. split; [|reflexivity]. f_equal.
  pose proof (b2n_bound p). pose proof (b2n_bound q).
  assert (A : b2n p / 16 = b2n q / 16). { apply (f_equal (digit_val 16)) in E1. rewrite !digit16_hex in E1 by (apply N.div_lt_upper_bound; lia). congruence. }
  assert (B : b2n p mod 16 = b2n q mod 16). { apply (f_equal (digit_val 16)) in E2. rewrite !digit16_hex in E2 by (apply N.mod_lt; lia). congruence. }
  apply b2n_inj. rewrite (N.div_mod (b2n p) 16), (N.div_mod (b2n q) 16) by lia. congruence.
Qed.
Lemma lower_hex_ih s : lower_hex s = show_info_hash s.
Proof. induction s as [|p s IH]; [reflexivity|]. cbn [lower_hex show_info_hash flat_map]. unfold lower_hex, show_info_hash in IH. rewrite IH. f_equal. destruct p; reflexivity. Qed.
Lemma ih_alone a b : length a = length b -> show_info_hash a = show_info_hash b -> a = b.
Proof. intros L E. apply (ih_app a b [] []); auto. now rewrite !app_nil_r. Qed.
Ltac cut H := rewrite <- ?app_assoc in H; apply app_inv_head in H.

Section Texts.
Variable plain : N -> bool.
Lemma message_inj r r' q q' : chain (message_chain r q) = chain (message_chain r' q') -> q = q'.
Proof.
  intros E. destruct q as [t|t p|i| |], q' as [t'|t' p'|i'| |]; cbn [message_chain] in E; try reflexivity.
  all: try (exfalso; try (destruct r); try (destruct r'); cbn [chain] in E; lazy -[dec hex chain packet_text] in E; discriminate E).
  - cbn [chain] in E. cut E. apply dec_alone, b2n_inj in E. now subst.
  - cbn [chain] in E. cut E. unfold hex0x in E.
    destruct (b2n t <? 16), (b2n t' <? 16); try (exfalso; lazy -[hex app packet_text] in E; discriminate E).
    all: cut E; try (cut E); apply hex_app in E as [E E2]; try reflexivity; apply b2n_inj in E; subst t'.
    all: destruct p, p'; try reflexivity; discriminate E2.
  - cbn [chain] in E. cut E. apply dec_alone in E. now subst.
Qed.
Lemma registry_inj q q' : registry_text q = registry_text q' -> q = q'.
Proof.
  intros E. destruct q as [|c|[]], q' as [|c'|[]]; cbn [registry_text] in E; try reflexivity; try (exfalso; lazy -[dec] in E; discriminate E).
  - exfalso. (* 0 once, c more than once *)
    change (bs "extended message ID 0 listed in " ++ dq ++ bs "m" ++ dq) with (bs "extended message ID " ++ dec 0 ++ bs " listed in " ++ dq ++ bs "m" ++ dq) in E.
    cut E. apply dec_app in E as [_ E]; try reflexivity. discriminate E.
  - exfalso.
    change (bs "extended message ID 0 listed in " ++ dq ++ bs "m" ++ dq) with (bs "extended message ID " ++ dec 0 ++ bs " listed in " ++ dq ++ bs "m" ++ dq) in E.
    cut E. apply dec_app in E as [_ E]; try reflexivity. discriminate E.
  - cut E. apply dec_app in E as [-> _]; reflexivity.
Qed.
Lemma hs_inj r r' h h' : ~ connection_lost h -> ~ connection_lost h' -> chain (hs_chain r h) = chain (hs_chain r' h') -> h = h'.
Proof.
  unfold connection_lost. intros D D' E.
  destruct h as [n| |n|n|c| | |]; try (exfalso; apply D; auto; fail); destruct h' as [n'| |n'|n'|c'| | |]; try (exfalso; apply D'; auto; fail); try reflexivity;
    cbn [hs_chain chain] in E; unfold hex0x in E; try (exfalso; lazy -[dec hex app] in E; discriminate E).
  all: try (exfalso; try destruct c; try destruct c'; lazy -[dec hex] in E; discriminate E).
  - cut E. apply dec_app in E as [-> _]; reflexivity.
  - cut E. apply dec_app in E as [-> _]; reflexivity.
  - exfalso. change (bs "server selected unknown crypto method ") with (bs "server selected " ++ bs "unknown crypto method ") in E. cut E. apply dec_not in E; [exact E|reflexivity].
  - exfalso. change (bs "server selected crypto method ") with (bs "server selected " ++ bs "crypto method ") in E. cut E. apply dec_not in E; [exact E|reflexivity].
  - exfalso. change (bs "server selected unknown crypto method ") with (bs "server selected " ++ bs "unknown crypto method ") in E. cut E. symmetry in E. apply dec_not in E; [exact E|reflexivity].
  - cut E. cut E. apply hex_alone in E. now subst.
  - exfalso. change (bs "server selected crypto method ") with (bs "server selected " ++ bs "crypto method ") in E. cut E. symmetry in E. apply dec_not in E; [exact E|reflexivity].
  - destruct c, c'; try reflexivity; discriminate E.
Qed.
Ltac done3 := split; [try reflexivity|repeat split; try discriminate; intros [(? & [=])|[=]]].
Lemma build_inj x x' g g' q q' : (q = Digest -> length g = 20%nat /\ length x = 20%nat) -> (q' = Digest -> length g' = 20%nat /\ length x' = 20%nat) ->
  build_text x g q = build_text x' g' q' -> q = q' /\ (q = Digest -> g = g' /\ x = x').
Proof.
  intros L L' E. destruct q as [[]|n|], q' as [[]|n'|]; cbn [build_text dict_text] in E; try (split; [reflexivity|discriminate]); try (exfalso; lazy -[dec show_info_hash lower_hex] in E; discriminate E).
  - cut E. apply dec_app in E as [-> _]; try reflexivity. split; [reflexivity|discriminate].
  - split; [reflexivity|]. intros _. destruct (L eq_refl), (L' eq_refl). cut E. apply ih_app in E as [-> E]; [|congruence]. cut E. rewrite !lower_hex_ih in E. apply ih_alone in E; [auto|congruence].
Qed.
Lemma reason_full s p p' d d' e e' : wf_sa p -> wf_sa p' -> ~ connection_lost (d_hs d) -> ~ connection_lost (d_hs d') ->
  reason_fits d e -> reason_fits d' e' ->
  record_text plain (LPeerFailed s p d e) = record_text plain (LPeerFailed s p' d' e') -> p = p' /\ same_reason d e d' e'.
Proof.
  intros W W' D D' F F' E. cbn [record_text] in E. do 3 apply app_inv_head in E. apply show_peer_app in E as [-> E]; auto. split; [reflexivity|]. apply app_inv_head in E. pose proof (chain_kind plain d d' e e' D D' E) as K.
  unfold same_reason. destruct e, e'; try discriminate K; try (done3; fail); cbn [peer_chain] in E.
  - cbn [chain] in E. cbn [reason_fits] in F, F'. destruct F, F'. cut E. apply ih_app in E as [X E]; [|congruence]. cut E. apply ih_alone in E; [subst|congruence]. split; [reflexivity|]. repeat split; try discriminate. auto.
  - destruct e as [|[]], e0 as [|[]]; try discriminate E; done3.
  - split; [reflexivity|]. split; [|split; [discriminate|intros [(? & [=])|[=]]]]. intros _. eapply hs_inj; eauto.
  - assert (E' : chain (message_chain (d_src d) e) = chain (message_chain (d_src d') e0)).
    { destruct (message_chain (d_src d) e) eqn:A; [destruct e; discriminate A|]. destruct (message_chain (d_src d') e0) eqn:B; [destruct e0; discriminate B|].
      change (bs "peer sent invalid message" ++ bs ": " ++ chain (b :: l) = bs "peer sent invalid message" ++ bs ": " ++ chain (b0 :: l0)) in E. do 2 cut E. exact E. }
    apply message_inj in E'. subst. done3.
  - cbn [chain] in E. do 2 apply app_inv_head in E. apply registry_inj in E. subst. done3.
  - destruct e as [n], e0 as [n']. cbn [chain construct_text] in E. cut E. apply dec_app in E as [-> _]; try reflexivity. done3.
  - cbn [chain] in E. destruct e as [|i a b], e0 as [|i' a' b']; try discriminate E; [done3|]. cbn [push_text] in E.
    cut E. apply dec_app in E as [-> E]; try reflexivity. cut E. apply dec_app in E as [-> E]; try reflexivity. cut E. apply dec_alone in E. subst. done3.
  - cbn [chain] in E. do 2 apply app_inv_head in E. apply build_inj in E as [-> E].
    + split; [reflexivity|]. split; [discriminate|]. split; [intros [= ->]; apply E; reflexivity|]. intros [(? & [=])|[= ->]]. apply E. reflexivity.
    + intros ->. exact F.
    + intros ->. exact F'.
  - cbn [chain] in E. cut E. apply dec_app in E as [-> E]; try reflexivity. cut E. apply dec_app in E as [-> _]; try reflexivity. done3.
  - cbn [chain] in E. cut E. apply dec_app in E as [-> E]; try reflexivity. cut E. apply dec_alone in E. subst. done3.
  - cbn [chain] in E. cut E. apply dec_app in E as [-> E]; try reflexivity. done3.
  - cbn [chain] in E. cut E. apply show_msg_iff in E; auto. split; [exact E|]. repeat split; try discriminate. intros [(? & [=])|[=]].
Qed.
End Texts.
