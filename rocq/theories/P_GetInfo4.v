(** Proofs for C92: no TCP connection. *)
From Verif Require Import Base M_Net M_Torrent M_Peer M_Frame M_Rc4 M_Mse M_Session M_Connect M_GetInfo S_GetInfo P_GetInfo3.

Lemma not_plain override p requires : get_crypto_mode override p requires = Ok Plain <-> requires = false /\ (override = Some Plain \/ (override = None /\ (p = CPNever \/ p = CPIfRequired))).
Proof.
  unfold get_crypto_mode. destruct override as [[]|], requires, p; cbn; split; intros H;
    repeat match goal with H : _ \/ _ |- _ => destruct H | H : _ /\ _ |- _ => destruct H end; try discriminate; try congruence; auto 9.
Qed.
Lemma refused_plain ih pid i override p limit secs now enc plain t0 e : override = Some Plain \/ (override = None /\ (p = CPNever \/ p = CPIfRequired)) ->
  d_tcp plain = Some (t0, Err e) -> t0 <= limit ->
  get_info ih pid i override p false limit secs now enc plain = Ret ([false], SDone (Err e)).
Proof.
  intros M E L. unfold get_info. assert (M' : get_crypto_mode override p false = Ok Plain) by (apply not_plain; auto). apply N.leb_le in L.
  rewrite M'. unfold connect_plain, within. cbn [d_tcp]. rewrite E, L. unfold run_connect. rewrite M'. unfold timeout. rewrite L. reflexivity.
Qed.
Lemma late_plain ih pid i override p limit secs now enc plain : override = Some Plain \/ (override = None /\ (p = CPNever \/ p = CPIfRequired)) ->
  (forall t0 r, d_tcp plain = Some (t0, r) -> limit < t0) ->
  get_info ih pid i override p false limit secs now enc plain = Ret ([false], SDone (Err ConnectTimeout)).
Proof.
  intros M L. unfold get_info. assert (M' : get_crypto_mode override p false = Ok Plain) by (apply not_plain; auto).
  rewrite M'. unfold connect_plain, within. cbn [d_tcp]. assert (E : match d_tcp plain with Some (t, _) => if t <=? limit then d_tcp plain else None | None => None end = None).
  { destruct (d_tcp plain) as [[t0 r]|]; [|reflexivity]. specialize (L _ _ eq_refl). apply N.leb_gt in L. rewrite L. reflexivity. }
  rewrite E. unfold run_connect. rewrite M'. reflexivity.
Qed.
Lemma refused_crypto ih pid i override p requires limit secs now enc plain t0 e : wants_encryption override p requires ->
  d_tcp enc = Some (t0, Err e) -> e <> ECryptoHandshake -> t0 <= limit ->
  get_info ih pid i override p requires limit secs now enc plain = Ret ([true], SDone (Err e)).
Proof.
  intros M E NE L. apply mode_encrypts in M. unfold get_info, connect_crypto, connect_encrypted, within. cbn [d_tcp]. apply N.leb_le in L. rewrite E, L.
  unfold run_connect, timeout. rewrite L. destruct M as [-> | ->]; [reflexivity|]. destruct e; try reflexivity. congruence.
Qed.
Lemma late_crypto ih pid i override p requires limit secs now enc plain : wants_encryption override p requires ->
  (forall t0 r, d_tcp enc = Some (t0, r) -> limit < t0) ->
  get_info ih pid i override p requires limit secs now enc plain = Ret ([true], SDone (Err ConnectTimeout)).
Proof.
  intros M L. apply mode_encrypts in M. unfold get_info, connect_crypto, connect_encrypted, within. cbn [d_tcp].
  assert (E : match d_tcp enc with Some (t, _) => if t <=? limit then d_tcp enc else None | None => None end = None).
  { destruct (d_tcp enc) as [[t0 r]|]; [|reflexivity]. specialize (L _ _ eq_refl). apply N.leb_gt in L. rewrite L. reflexivity. }
  rewrite E. unfold run_connect, timeout. destruct M as [-> | ->]; reflexivity.
Qed.
