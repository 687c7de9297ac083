(** Lemmas for C_Wire. *)
From Verif Require Import Base BaseFacts S_Bencode M_Bencode P_Bencode S_Utf8 M_Utf8 P_Utf8 M_Net M_Util M_Types P_Types
  M_Compact M_Extensions M_Messages S_Wire.

Lemma Ok_inj {E A} (a b : A) : @Ok E A a = Ok b -> a = b.
Proof. congruence. Qed.

Lemma app_len_inj {A} (a a' b b' : list A) : length a = length a' -> a ++ b = a' ++ b' -> a = a' /\ b = b'.
Proof.
  revert a'; induction a as [|x a IH]; intros [|y a'] L E; try discriminate; auto.
  injection L as L. injection E as -> E. destruct (IH _ L E) as [-> ->]. auto.
Qed.

(** ** Integers *)
Lemma be_be_val l : be l = be_val l.
Proof. induction l as [|b l IH]; [reflexivity|]. cbn [be]. now rewrite be_val_cons, IH. Qed.

Lemma be_bound l : be l < 256 ^ N.of_nat (length l).
Proof. rewrite be_be_val. apply be_val_bound. Qed.

Lemma be_inj a b : length a = length b -> be a = be b -> a = b.
Proof. rewrite !be_be_val. apply be_val_inj. Qed.

Lemma be_be_bytes k n : n < 256 ^ N.of_nat k -> be (be_bytes k n) = n.
Proof. intros. rewrite be_be_val. now apply be_val_be_bytes_small. Qed.

Lemma be_bytes_be k l : length l = k -> be_bytes k (be l) = l.
Proof. intros. rewrite be_be_val. now apply be_bytes_be_val_k. Qed.

Lemma try_get_uint_iff k buf n r : try_get_uint k buf = Ok (n, r) <->
  exists b, buf = b ++ r /\ length b = k /\ be b = n.
Proof.
  unfold try_get_uint. split.
  - destruct (Nat.leb_spec k (length buf)); [|discriminate]. intros [= <- <-].
    exists (firstn k buf). rewrite firstn_skipn, firstn_length, be_be_val. repeat split; lia.
  - intros (b & -> & <- & <-). rewrite app_length.
    destruct (Nat.leb_spec (length b) (length b + length r)); [|lia].
    rewrite firstn_app, skipn_app, Nat.sub_diag, firstn_all, skipn_all, app_nil_r, be_be_val. reflexivity.
Qed.

Lemma try_get_uint_short k buf : (length buf < k)%nat -> try_get_uint k buf = Err Short.
Proof. intros. unfold try_get_uint. destruct (Nat.leb_spec k (length buf)); [lia|reflexivity]. Qed.

Lemma reads_big_endian k buf :
  ((length buf < k)%nat -> try_get_uint k buf = Err Short) /\
  (forall b r, buf = b ++ r -> length b = k -> try_get_uint k buf = Ok (be b, r)).
Proof.
  split; [apply try_get_uint_short|]. intros b r -> <-. apply try_get_uint_iff. eauto.
Qed.

Lemma reads_signed buf :
  ((length buf < 4)%nat -> try_get_i32 buf = Err Short) /\
  (forall b r, buf = b ++ r -> length b = 4%nat ->
     exists z, try_get_i32 buf = Ok (z, r) /\ signed 32 (be b) z).
Proof.
  unfold try_get_i32. split.
  - intros. now rewrite try_get_uint_short.
  - intros b r -> L. rewrite (proj2 (reads_big_endian 4 _) b r) by auto.
    pose proof (be_bound b) as B. rewrite L in B. change (256 ^ N.of_nat 4) with 4294967296 in B.
    eexists. split; [reflexivity|]. unfold signed. change (Z.of_N 32) with 32%Z.
    change (2 ^ 31) with 2147483648. change (2 ^ (32 - 1))%Z with 2147483648%Z. change (2 ^ 32)%Z with 4294967296%Z.
    destruct (N.ltb_spec (be b) 2147483648).
    + split; [lia|]. apply Z.mod_small. lia.
    + split; [lia|]. rewrite <- (Z.mod_add _ 1) by lia. rewrite Z.mod_small; lia.
Qed.

(** ** Compact addresses *)
Lemma address_octets i s : wf_ip i -> (address_bytes i s <-> s = octets i).
Proof.
  destruct i as [n|n]; cbn [wf_ip address_bytes octets]; intros W.
  - change (2 ^ 32) with (256 ^ N.of_nat 4) in W. split.
    + intros [L E]. subst n. now rewrite be_bytes_be.
    + intros ->. rewrite be_bytes_length, be_be_bytes; auto.
  - change (2 ^ 128) with (256 ^ N.of_nat 16) in W. split.
    + intros [L E]. subst n. now rewrite be_bytes_be.
    + intros ->. rewrite be_bytes_length, be_be_bytes; auto.
Qed.

Lemma address_wf i s : address_bytes i s -> wf_ip i.
Proof.
  destruct i; cbn [address_bytes wf_ip]; intros [L E]; subst; pose proof (be_bound s) as B; rewrite L in B; exact B.
Qed.

Lemma compact_wf a s : compact a s -> wf_sa a.
Proof.
  intros (h & p & -> & A & L & E). split; [eapply address_wf; eauto|].
  pose proof (be_bound p) as B. rewrite L, E in B. exact B.
Qed.

Lemma to_compact_spec a : wf_sa a -> compact a (to_compact a).
Proof.
  intros [W P]. exists (octets (sa_ip a)), (be_bytes 2 (sa_port a)).
  split; [reflexivity|]. split; [now apply address_octets|]. split; [apply be_bytes_length|apply be_be_bytes; exact P].
Qed.

Lemma compact_unique a s : compact a s -> s = to_compact a.
Proof.
  intros C. pose proof (compact_wf _ _ C) as [W _]. destruct C as (h & p & -> & A & L & E).
  unfold to_compact. apply address_octets in A; auto. subst h. f_equal. rewrite <- E. now rewrite be_bytes_be.
Qed.

Lemma compact_v4_iff s a : from_compact_v4 s = Ok a <-> compact a s /\ is_v4 a.
Proof.
  unfold from_compact_v4. split.
  - destruct (Nat.eqb_spec (length s) 6) as [L|]; [|discriminate]. intros HO. apply Ok_inj in HO. subst a. split; [|exact I].
    exists (firstn 4 s), (skipn 4 s). rewrite firstn_skipn. cbn [sa_ip sa_port address_bytes].
    rewrite !be_be_val, firstn_length, skipn_length, L.
    rewrite (firstn_all2 (n := 2) (skipn 4 s)) by (rewrite skipn_length; lia). repeat split; reflexivity.
  - intros [(h & p & -> & A & L & E) V]. destruct a as [[n|n] port]; [|destruct V]. cbn [sa_ip sa_port address_bytes] in *.
    destruct A as [LA EA]. rewrite app_length, LA, L. cbn [Nat.add Nat.eqb].
    rewrite <- LA at 1 2.
    rewrite firstn_app, skipn_app, Nat.sub_diag, firstn_all, skipn_all, firstn_O, skipn_O, app_nil_r, app_nil_l.
    rewrite firstn_all2, <- !be_be_val, EA, E by lia. reflexivity.
Qed.

Lemma compact_v6_iff s a : from_compact_v6 s = Ok a <-> compact a s /\ ~ is_v4 a.
Proof.
  unfold from_compact_v6. split.
  - destruct (Nat.eqb_spec (length s) 18) as [L|]; [|discriminate]. intros HO. apply Ok_inj in HO. subst a. split; [|intros []].
    exists (firstn 16 s), (skipn 16 s). rewrite firstn_skipn. cbn [sa_ip sa_port address_bytes].
    rewrite !be_be_val, firstn_length, skipn_length, L.
    rewrite (firstn_all2 (n := 2) (skipn 16 s)) by (rewrite skipn_length; lia). repeat split; reflexivity.
  - intros [(h & p & -> & A & L & E) V]. destruct a as [[n|n] port]; [destruct V; exact I|].
    cbn [sa_ip sa_port address_bytes] in *.
    destruct A as [LA EA]. rewrite app_length, LA, L. cbn [Nat.add Nat.eqb].
    rewrite <- LA at 1 2.
    rewrite firstn_app, skipn_app, Nat.sub_diag, firstn_all, skipn_all, firstn_O, skipn_O, app_nil_r, app_nil_l.
    rewrite firstn_all2, <- !be_be_val, EA, E by lia. reflexivity.
Qed.

Lemma from_compact_split s : from_compact s =
  if Nat.eqb (length s) 6 then from_compact_v4 s else from_compact_v6 s.
Proof. unfold from_compact, from_compact_v4, from_compact_v6. now destruct (Nat.eqb (length s) 6). Qed.

Lemma compact_length a s : compact a s -> length s = (if match sa_ip a with V4 _ => true | V6 _ => false end then 6 else 18)%nat.
Proof.
  intros (h & p & -> & A & L & E). rewrite app_length, L.
  destruct (sa_ip a); cbn [address_bytes] in A; destruct A as [-> _]; reflexivity.
Qed.

Lemma compact_iff s a : from_compact s = Ok a <-> compact a s.
Proof.
  rewrite from_compact_split. destruct (Nat.eqb_spec (length s) 6) as [L|L].
  - rewrite compact_v4_iff. split; [tauto|]. intros C. split; auto. apply compact_length in C. unfold is_v4.
    destruct (sa_ip a); [exact I|lia].
  - rewrite compact_v6_iff. split; [tauto|]. intros C. split; auto. apply compact_length in C. unfold is_v4.
    destruct (sa_ip a); [lia|auto].
Qed.

Lemma compact_accepts s : (exists a, from_compact s = Ok a) <-> length s = 6%nat \/ length s = 18%nat.
Proof.
  unfold from_compact. destruct (Nat.eqb_spec (length s) 6), (Nat.eqb_spec (length s) 18); split; eauto.
  - intros [a H]. discriminate.
  - lia.
Qed.

Lemma compact_addresses :
  (forall a, wf_sa a -> compact a (to_compact a) /\ from_compact (to_compact a) = Ok a) /\
  (forall s a, from_compact s = Ok a <-> compact a s) /\
  (forall s, (exists a, from_compact s = Ok a) <-> length s = 6%nat \/ length s = 18%nat) /\
  (forall s a, from_compact_v4 s = Ok a <-> compact a s /\ is_v4 a) /\
  (forall s a, from_compact_v6 s = Ok a <-> compact a s /\ ~ is_v4 a).
Proof.
  split; [|exact (conj compact_iff (conj compact_accepts (conj compact_v4_iff compact_v6_iff)))].
  intros a W. split; [now apply to_compact_spec|now apply compact_iff, to_compact_spec].
Qed.

(** ** Lists of compact addresses *)
Section Vec.
Context (item : bytes -> res compact_error sockaddr) (k : nat) (P : sockaddr -> Prop).
Hypothesis kpos : (0 < k)%nat.
Hypothesis item_iff : forall s a, item s = Ok a <-> compact a s /\ P a.
Hypothesis item_len : forall s, length s <> k -> item s = Err (BadLength (length s)).
Hypothesis item_ok : forall s, length s = k -> exists a, item s = Ok a.

Lemma vec_ok fuel s : (length s <= fuel)%nat -> (length s mod k = 0)%nat ->
  exists l, vec_from_compact_go item k fuel s = Ok l /\ (length l * k = length s)%nat /\
    Forall P l /\ concat (map to_compact l) = s.
Proof using kpos item_iff item_ok.
  clear item_len.
  revert s. induction fuel as [|f IH]; intros s HL HM.
  - destruct s; [|cbn in HL; lia]. exists []. repeat split; auto.
  - destruct s as [|c s]; [exists []; repeat split; auto|]. cbn [vec_from_compact_go].
    set (s' := c :: s) in *. assert (L0 : (0 < length s')%nat) by (subst s'; cbn; lia).
    assert (KL : (k <= length s')%nat).
    { destruct (Nat.lt_ge_cases (length s') k); auto. rewrite Nat.mod_small in HM by lia. lia. }
    destruct (Nat.leb_spec k (length s')); [|lia].
    destruct (item_ok (firstn k s')) as [a Ha]; [rewrite firstn_length; lia|]. rewrite Ha. cbn [res_bind].
    destruct (IH (skipn k s')) as (l & E & Ll & FP & EC).
    + rewrite skipn_length. lia.
    + rewrite skipn_length. apply Nat.mod_divides in HM as [q HM]; [|lia]. rewrite HM.
      destruct q as [|q]; [lia|]. replace (k * S q - k)%nat with (q * k)%nat by lia. apply Nat.mod_mul. lia.
    + rewrite E. cbn [res_bind]. exists (a :: l). split; [reflexivity|]. split; [|split].
      * cbn [length]. rewrite skipn_length in Ll. lia.
      * constructor; auto. now apply item_iff in Ha.
      * cbn [map concat]. apply item_iff in Ha as [Ha _]. apply compact_unique in Ha. rewrite <- Ha, EC.
        apply firstn_skipn.
Qed.

Lemma vec_bad fuel s : (length s <= fuel)%nat -> (length s mod k <> 0)%nat ->
  vec_from_compact_go item k fuel s = Err (BadLength (length s mod k)).
Proof using kpos item_len item_ok.
  clear item_iff P.
  revert s. induction fuel as [|f IH]; intros s HL HM.
  - destruct s; [|cbn in HL; lia]. cbn in HM. rewrite Nat.mod_0_l in HM by lia. lia.
  - destruct s as [|c s]; [cbn in HM; rewrite Nat.mod_0_l in HM by lia; lia|]. cbn [vec_from_compact_go].
    set (s' := c :: s) in *. assert (L0 : (0 < length s')%nat) by (subst s'; cbn; lia).
    destruct (Nat.leb_spec k (length s')).
    + destruct (item_ok (firstn k s')) as [a Ha]; [rewrite firstn_length; lia|]. rewrite Ha. cbn [res_bind].
      assert (M : (length (skipn k s') mod k = length s' mod k)%nat).
      { rewrite skipn_length. rewrite <- (Nat.mod_add (length s' - k) 1 k) by lia. f_equal. lia. }
      rewrite IH; [cbn [res_bind]; now rewrite M|rewrite skipn_length; lia|lia].
    + rewrite item_len by lia. cbn [res_bind]. rewrite Nat.mod_small by lia. reflexivity.
Qed.
End Vec.

Lemma v4_len s : length s <> 6%nat -> from_compact_v4 s = Err (BadLength (length s)).
Proof. intros. unfold from_compact_v4. destruct (Nat.eqb_spec (length s) 6); [lia|reflexivity]. Qed.
Lemma v6_len s : length s <> 18%nat -> from_compact_v6 s = Err (BadLength (length s)).
Proof. intros. unfold from_compact_v6. destruct (Nat.eqb_spec (length s) 18); [lia|reflexivity]. Qed.
Lemma v4_ok s : length s = 6%nat -> exists a, from_compact_v4 s = Ok a.
Proof. intros L. unfold from_compact_v4. rewrite L. cbn [Nat.eqb]. eauto. Qed.
Lemma v6_ok s : length s = 18%nat -> exists a, from_compact_v6 s = Ok a.
Proof. intros L. unfold from_compact_v6. rewrite L. cbn [Nat.eqb]. eauto. Qed.

Lemma concat_compact_inj (k : nat) : (0 < k)%nat -> forall l l' ,
  Forall (fun a => wf_sa a /\ length (to_compact a) = k) l -> Forall (fun a => wf_sa a /\ length (to_compact a) = k) l' ->
  concat (map to_compact l) = concat (map to_compact l') -> l = l'.
Proof.
  intros K. induction l as [|a l IH]; intros [|a' l'] F F' E; cbn [map concat] in E; auto.
  - apply (f_equal (@length _)) in E. inversion F' as [|? ? [_ L] _]; subst. rewrite app_length in E. cbn [length] in E. lia.
  - apply (f_equal (@length _)) in E. inversion F as [|? ? [_ L] _]; subst. rewrite app_length in E. cbn [length] in E. lia.
  - inversion F as [|? ? [W L] F1]; subst. inversion F' as [|? ? [W' L'] F2]; subst.
    assert (E1 : to_compact a = to_compact a' /\ concat (map to_compact l) = concat (map to_compact l')).
    { apply app_len_inj; auto; congruence. }
    destruct E1 as [E1 E2]. f_equal; [|apply IH; auto].
    pose proof (proj2 (proj1 compact_addresses a W)) as R. rewrite E1, (proj2 (proj1 compact_addresses a' W')) in R. congruence.
Qed.

Lemma vec_v4 s :
  (forall l, vec_v4_from_compact s = Ok l <-> Forall (fun a => wf_sa a /\ is_v4 a) l /\ s = concat (map to_compact l)) /\
  ((exists l, vec_v4_from_compact s = Ok l) <-> (length s mod 6 = 0)%nat) /\
  (forall l, vec_v4_from_compact s = Ok l -> (length l * 6 = length s)%nat).
Proof.
  assert (LC : forall a, is_v4 a -> wf_sa a -> length (to_compact a) = 6%nat).
  { intros a V W. pose proof (compact_length _ _ (to_compact_spec _ W)) as L. unfold is_v4 in V. destruct (sa_ip a); [exact L|destruct V]. }
  assert (G : forall l, vec_v4_from_compact s = Ok l -> (length s mod 6 = 0)%nat /\ (length l * 6 = length s)%nat /\
     Forall (fun a => wf_sa a /\ is_v4 a) l /\ concat (map to_compact l) = s).
  { intros l H. destruct (Nat.eq_dec (length s mod 6) 0) as [M|M].
    - destruct (vec_ok from_compact_v4 6 (fun a => wf_sa a /\ is_v4 a) ltac:(lia)) with (fuel := length s) (s := s) as (l' & E & L & F & C); auto.
      + intros. rewrite compact_v4_iff. split; [|tauto]. intros [C V]. repeat split; auto; apply (compact_wf _ _ C).
      + apply v4_ok.
      + unfold vec_v4_from_compact in H. rewrite E in H. injection H as <-. auto.
    - unfold vec_v4_from_compact in H.
      rewrite (vec_bad from_compact_v4 6 ltac:(lia) v4_len v4_ok) in H by auto. discriminate. }
  split; [|split].
  - intros l. split; [intros H; destruct (G _ H) as (_ & _ & F & C); auto|].
    intros [F ->]. destruct (Nat.eq_dec (length (concat (map to_compact l)) mod 6) 0) as [M|M].
    + destruct (vec_ok from_compact_v4 6 (fun a => wf_sa a /\ is_v4 a) ltac:(lia))
        with (fuel := length (concat (map to_compact l))) (s := concat (map to_compact l)) as (l' & E & L & F' & C); auto.
      * intros. rewrite compact_v4_iff. split; [|tauto]. intros [C V]. repeat split; auto; apply (compact_wf _ _ C).
      * apply v4_ok.
      * unfold vec_v4_from_compact. rewrite E. f_equal. apply (concat_compact_inj 6); auto; try lia.
        -- eapply Forall_impl; [|exact F']. intros a [W V]. auto.
        -- eapply Forall_impl; [|exact F]. intros a [W V]. auto.
    + exfalso. apply M. clear -F LC. induction F as [|a l [W V] _ IH]; [reflexivity|].
      cbn [map concat]. rewrite app_length, LC by auto. rewrite Nat.add_comm.
      change 6%nat with (1 * 6)%nat at 1. rewrite Nat.mod_add by lia. exact IH.
  - split.
    + intros [l H]. now destruct (G _ H).
    + intros M. destruct (vec_ok from_compact_v4 6 (fun a => wf_sa a /\ is_v4 a) ltac:(lia)) with (fuel := length s) (s := s) as (l' & E & _); eauto.
      * intros. rewrite compact_v4_iff. split; [|tauto]. intros [C V]. repeat split; auto; apply (compact_wf _ _ C).
      * apply v4_ok.
  - intros l H. now destruct (G _ H).
Qed.

Lemma vec_v6 s :
  (forall l, vec_v6_from_compact s = Ok l <-> Forall (fun a => wf_sa a /\ ~ is_v4 a) l /\ s = concat (map to_compact l)) /\
  ((exists l, vec_v6_from_compact s = Ok l) <-> (length s mod 18 = 0)%nat) /\
  (forall l, vec_v6_from_compact s = Ok l -> (length l * 18 = length s)%nat).
Proof.
  assert (LC : forall a, ~ is_v4 a -> wf_sa a -> length (to_compact a) = 18%nat).
  { intros a V W. pose proof (compact_length _ _ (to_compact_spec _ W)) as L. unfold is_v4 in V. destruct (sa_ip a); [destruct V; exact I|exact L]. }
  assert (G : forall l, vec_v6_from_compact s = Ok l -> (length s mod 18 = 0)%nat /\ (length l * 18 = length s)%nat /\
     Forall (fun a => wf_sa a /\ ~ is_v4 a) l /\ concat (map to_compact l) = s).
  { intros l H. destruct (Nat.eq_dec (length s mod 18) 0) as [M|M].
    - destruct (vec_ok from_compact_v6 18 (fun a => wf_sa a /\ ~ is_v4 a) ltac:(lia)) with (fuel := length s) (s := s) as (l' & E & L & F & C); auto.
      + intros. rewrite compact_v6_iff. split; [|tauto]. intros [C V]. repeat split; auto; apply (compact_wf _ _ C).
      + apply v6_ok.
      + unfold vec_v6_from_compact in H. rewrite E in H. injection H as <-. auto.
    - unfold vec_v6_from_compact in H.
      rewrite (vec_bad from_compact_v6 18 ltac:(lia) v6_len v6_ok) in H by auto. discriminate. }
  split; [|split].
  - intros l. split; [intros H; destruct (G _ H) as (_ & _ & F & C); auto|].
    intros [F ->]. destruct (Nat.eq_dec (length (concat (map to_compact l)) mod 18) 0) as [M|M].
    + destruct (vec_ok from_compact_v6 18 (fun a => wf_sa a /\ ~ is_v4 a) ltac:(lia))
        with (fuel := length (concat (map to_compact l))) (s := concat (map to_compact l)) as (l' & E & L & F' & C); auto.
      * intros. rewrite compact_v6_iff. split; [|tauto]. intros [C V]. repeat split; auto; apply (compact_wf _ _ C).
      * apply v6_ok.
      * unfold vec_v6_from_compact. rewrite E. f_equal. apply (concat_compact_inj 18); auto; try lia.
        -- eapply Forall_impl; [|exact F']. intros a [W V]. auto.
        -- eapply Forall_impl; [|exact F]. intros a [W V]. auto.
    + exfalso. apply M. clear -F LC. induction F as [|a l [W V] _ IH]; [reflexivity|].
      cbn [map concat]. rewrite app_length, LC by auto. rewrite Nat.add_comm.
      change 18%nat with (1 * 18)%nat at 1. rewrite Nat.mod_add by lia. exact IH.
  - split.
    + intros [l H]. now destruct (G _ H).
    + intros M. destruct (vec_ok from_compact_v6 18 (fun a => wf_sa a /\ ~ is_v4 a) ltac:(lia)) with (fuel := length s) (s := s) as (l' & E & _); eauto.
      * intros. rewrite compact_v6_iff. split; [|tauto]. intros [C V]. repeat split; auto; apply (compact_wf _ _ C).
      * apply v6_ok.
  - intros l H. now destruct (G _ H).
Qed.
