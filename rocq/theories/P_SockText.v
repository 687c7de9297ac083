(** The socket address parser accepts exactly IP:PORT and [IP]:PORT. *)
From Verif Require Import Base BaseFacts S_Types P_Types M_Net M_IpText P_IpText S_IpText P_IpGrammar M_Tracker M_SockText S_SockText.

(** ** Nothing is read across a byte that is in no address *)
Definition alien (c : byte) : Prop := digit_val 16 c = None /\ c <> "."%byte /\ c <> ":"%byte.
Definition later {A} (t : bytes) (x : option (A * bytes)) : option (A * bytes) := leto (a, r) := x in Some (a, r ++ t).
Lemma alien10 c : digit_val 16 c = None -> digit_val 10 c = None.
Proof. intros H. destruct c; try reflexivity; discriminate H. Qed.
Lemma take_run_local radix c t s : digit_val radix c = None ->
  take_run radix (s ++ c :: t) = let (ds, r) := take_run radix s in (ds, r ++ c :: t).
Proof.
  intros H. induction s as [|b s IH]; cbn [app take_run].
  - rewrite H. reflexivity.
  - destruct (digit_val radix b); [|reflexivity]. rewrite IH. destruct (take_run radix s). reflexivity.
Qed.
Lemma read_number_local radix k z lim c t s : digit_val radix c = None ->
  read_number radix k z lim (s ++ c :: t) = later (c :: t) (read_number radix k z lim s).
Proof.
  intros H. unfold read_number. rewrite take_run_local by auto. destruct (take_run radix s) as [ds r].
  destruct (Nat.eqb (length ds) 0); [reflexivity|]. destruct (Nat.ltb k (length ds)); [reflexivity|].
  destruct (negb z && Nat.ltb 1 (length ds) && (hd 0 ds =? 0)); [reflexivity|]. destruct (lim <? run_val radix ds); reflexivity.
Qed.
Lemma read_char_local x c t s : c <> x -> read_char x (s ++ c :: t) = leto r := read_char x s in Some (r ++ c :: t).
Proof.
  intros H. destruct s as [|b s]; cbn [app read_char].
  - destruct (beqb_spec c x); [congruence|reflexivity].
  - destruct (Byte.eqb b x); reflexivity.
Qed.
Lemma read_octet_local c t s : alien c -> read_octet (s ++ c :: t) = later (c :: t) (read_octet s).
Proof. intros (H & _). apply read_number_local. now apply alien10. Qed.
Lemma read_ipv4_local c t s : alien c -> read_ipv4 (s ++ c :: t) = later (c :: t) (read_ipv4 s).
Proof.
  intros H. pose proof H as (H1 & H2 & H3). unfold read_ipv4.
  rewrite read_octet_local by auto. destruct (read_octet s) as [[a r1]|]; [|reflexivity]. cbn [later obind].
  rewrite read_char_local by auto. destruct (read_char "." r1) as [r2|]; [|reflexivity]. cbn [obind].
  rewrite read_octet_local by auto. destruct (read_octet r2) as [[b r3]|]; [|reflexivity]. cbn [later obind].
  rewrite read_char_local by auto. destruct (read_char "." r3) as [r4|]; [|reflexivity]. cbn [obind].
  rewrite read_octet_local by auto. destruct (read_octet r4) as [[d r5]|]; [|reflexivity]. cbn [later obind].
  rewrite read_char_local by auto. destruct (read_char "." r5) as [r6|]; [|reflexivity]. cbn [obind].
  rewrite read_octet_local by auto. destruct (read_octet r6) as [[e r7]|]; reflexivity.
Qed.
Lemma read_sep_local {A} first (f : bytes -> option (A * bytes)) c t s : alien c -> (forall s, f (s ++ c :: t) = later (c :: t) (f s)) ->
  read_sep first f (s ++ c :: t) = later (c :: t) (read_sep first f s).
Proof.
  intros (H1 & H2 & H3) F. unfold read_sep. destruct first; [apply F|].
  rewrite read_char_local by auto. destruct (read_char ":" s); [apply F|reflexivity].
Qed.
Lemma read_groups_local c t limit : alien c -> forall first s,
  read_groups limit first (s ++ c :: t) = let '(gs, f, r) := read_groups limit first s in (gs, f, r ++ c :: t).
Proof.
  intros H. induction limit as [|l IH]; intros first s; cbn [read_groups]; [reflexivity|].
  assert (E4 : match l with O => None | S _ => read_sep first read_ipv4 (s ++ c :: t) end
             = later (c :: t) (match l with O => None | S _ => read_sep first read_ipv4 s end)).
  { destruct l; [reflexivity|]. apply read_sep_local; auto. intros. now apply read_ipv4_local. }
  rewrite E4. destruct (match l with O => None | S _ => read_sep first read_ipv4 s end) as [[v4 r]|]; [reflexivity|]. cbn [later obind].
  rewrite read_sep_local by (auto; intros; apply read_number_local; apply H).
  destruct (read_sep first (read_number 16 4 true 65535) s) as [[g r]|]; [|reflexivity]. cbn [later obind].
  rewrite IH. destruct (read_groups l false r) as [[gs f] r']. reflexivity.
Qed.
Lemma read_ipv6_local c t s : alien c -> read_ipv6 (s ++ c :: t) = later (c :: t) (read_ipv6 s).
Proof.
  intros H. pose proof H as (H1 & H2 & H3). unfold read_ipv6. rewrite read_groups_local by auto.
  destruct (read_groups 8 true s) as [[h f] r]. destruct (Nat.eqb (length h) 8); [reflexivity|]. destruct f; [reflexivity|].
  rewrite read_char_local by auto. destruct (read_char ":" r) as [r1|]; [|reflexivity]. cbn [obind].
  rewrite read_char_local by auto. destruct (read_char ":" r1) as [r2|]; [|reflexivity]. cbn [obind].
  rewrite read_groups_local by auto. destruct (read_groups (8 - (length h + 1)) true r2) as [[tl f'] r3]. reflexivity.
Qed.
(** What is left is a suffix. *)
Lemma read_ipv6_suffix s n r : read_ipv6 s = Some (n, r) -> exists a, s = a ++ r.
Proof.
  unfold read_ipv6. destruct (read_groups 8 true s) as [[h f] r0] eqn:E. apply read_groups_some in E as (a & -> & _).
  destruct (Nat.eqb (length h) 8); [intros X; injection X as _ <-; eauto|]. destruct f; [discriminate|].
  destruct (read_char ":" r0) as [r1|] eqn:C1; [|discriminate]. cbn [obind]. apply read_char_sound in C1 as ->.
  destruct (read_char ":" r1) as [r2|] eqn:C2; [|discriminate]. cbn [obind]. apply read_char_sound in C2 as ->.
  destruct (read_groups (8 - (length h + 1)) true r2) as [[tl f'] r3] eqn:T. apply read_groups_some in T as (b & -> & _).
  intros X; injection X as _ <-. exists (a ++ ":"%byte :: ":"%byte :: b). rewrite <- app_assoc. reflexivity.
Qed.
Lemma read_ipv6_alien s n c t : alien c -> read_ipv6 s = Some (n, c :: t) <-> exists a, s = a ++ c :: t /\ ipv6_text a n.
Proof.
  intros H. split.
  - intros E. destruct (read_ipv6_suffix _ _ _ E) as (a & ->). exists a. split; [reflexivity|].
    rewrite read_ipv6_local in E by auto. destruct (read_ipv6 a) as [[m r]|] eqn:E6; [|discriminate]. cbn [later obind] in E.
    injection E as -> E. assert (r = []) as -> by (apply (f_equal (@length byte)) in E; rewrite app_length in E; destruct r; [reflexivity|cbn in E; lia]).
    now apply read_ipv6_sound.
  - intros (a & -> & T). rewrite read_ipv6_local by auto. rewrite (read_ipv6_complete _ _ T). reflexivity.
Qed.

(** ** Decimal numbers *)
Lemma digit10_value b : digit_val 10 b = decimal_value b.
Proof. destruct b; reflexivity. Qed.
Lemma run_val_number10 s : forall ds, Forall2 (fun b v => digit_val 10 b = Some v) s ds -> number 10 decimal_value s = Some (run_val 10 ds).
Proof.
  induction s as [|b s IH]; intros ds F; inversion F as [|? v ? vs H F']; subst; cbn [number]; [reflexivity|].
  rewrite <- digit10_value, H. cbn [obind]. rewrite (IH _ F'). cbn [obind]. f_equal.
  unfold run_val at 2. cbn [fold_left]. rewrite run_val_gen. rewrite (F2_length _ _ _ F'). lia.
Qed.
Lemma number_run10 s n : number 10 decimal_value s = Some n -> exists ds, Forall2 (fun b v => digit_val 10 b = Some v) s ds /\ run_val 10 ds = n.
Proof.
  intros H.
  assert (E : exists ds, Forall2 (fun b v => digit_val 10 b = Some v) s ds).
  { revert n H. induction s as [|b s IH]; intros n; cbn [number]; [exists []; constructor|].
    destruct (decimal_value b) as [d|] eqn:D; [|discriminate]. cbn [obind].
    destruct (number 10 decimal_value s) as [m|] eqn:M; [|discriminate]. intros _.
    destruct (IH _ eq_refl) as (ds & F). exists (d :: ds). constructor; auto. now rewrite digit10_value. }
  destruct E as (ds & F). exists ds. split; auto. rewrite (run_val_number10 _ _ F) in H. congruence.
Qed.
Lemma read_decimal_iff limit inp n r : read_decimal limit inp = Some (n, r) <->
  exists s, inp = s ++ r /\ decimal_text s n /\ n <= limit /\ match r with [] => True | c :: _ => decimal_value c = None end.
Proof.
  unfold read_decimal, read_number. split.
  - destruct (take_run 10 inp) as [ds r'] eqn:T. apply take_run_sound in T as (s & -> & F & R).
    destruct (Nat.eqb_spec (length ds) 0) as [|L0]; [discriminate|]. destruct (Nat.ltb _ _); [discriminate|]. cbn [negb andb].
    destruct (N.ltb_spec limit (run_val 10 ds)) as [|V]; [discriminate|]. intros X; injection X as <- <-.
    exists s. split; [reflexivity|]. split; [split|split; auto].
    + intros ->. apply L0. now rewrite <- (F2_length _ _ _ F).
    + now apply run_val_number10.
    + destruct r'; auto. now rewrite <- digit10_value.
  - intros (s & -> & (NE & V) & L & R). apply number_run10 in V as (ds & F & <-).
    rewrite (take_run_app 10 s ds r F) by (destruct r; auto; now rewrite digit10_value).
    pose proof (F2_length _ _ _ F) as LE. rewrite app_length.
    destruct (Nat.eqb_spec (length ds) 0) as [L0|_]; [destruct s; [congruence|cbn in LE; lia]|].
    destruct (Nat.ltb_spec (length s + length r) (length ds)); [lia|]. cbn [negb andb].
    destruct (N.ltb_spec limit (run_val 10 ds)); [lia|reflexivity].
Qed.
Lemma read_port_iff inp p : read_port inp = Some (p, []) <-> exists s, inp = ":"%byte :: s /\ port_text s p.
Proof.
  unfold read_port. split.
  - destruct (read_char ":" inp) as [r|] eqn:C; [|discriminate]. cbn [obind]. apply read_char_sound in C as ->. intros H.
    apply read_decimal_iff in H as (s & -> & D & L & _). rewrite app_nil_r. exists s. split; [reflexivity|]. split; [exact D|lia].
  - intros (s & -> & D & L). cbn [read_char]. rewrite beqb_refl. cbn [obind]. apply read_decimal_iff. exists s.
    rewrite app_nil_r. split; [reflexivity|]. split; [exact D|]. split; [lia|exact Logic.I].
Qed.
Lemma read_port_none inp p r : read_port inp = Some (p, r) -> exists s, inp = ":"%byte :: s.
Proof. unfold read_port. destruct (read_char ":" inp) as [r'|] eqn:C; [|discriminate]. apply read_char_sound in C as ->. eauto. Qed.

Lemma alien_bracket : alien "]"%byte. Proof. repeat split; discriminate. Qed.
Lemma alien_percent : alien "%"%byte. Proof. repeat split; discriminate. Qed.

Lemma v4_iff s a z : (exists r, read_sockaddr4 s = Some (a, z, r) /\ r = []) <-> exists n, sa_ip a = V4 n /\ sockaddr_text s a z.
Proof.
  unfold read_sockaddr4. split.
  - intros (r0 & H & ->). destruct (read_ipv4 s) as [[n r]|] eqn:E4; [|discriminate]. cbn [obind] in H.
    destruct (read_port r) as [[p r']|] eqn:EP; [|discriminate]. cbn [obind] in H. injection H as <- <- ->.
    exists n. split; [reflexivity|]. unfold sockaddr_text. cbn [sa_ip sa_port].
    apply read_ipv4_sound in E4 as (t & -> & T). apply read_port_iff in EP as (ps & -> & P). exists t, ps. auto.
  - intros (n & E & H). unfold sockaddr_text in H. rewrite E in H. destruct H as (t & p & -> & T & P & ->).
    exists []. split; [|reflexivity]. rewrite (read_ipv4_complete t n (":"%byte :: p) T eq_refl). cbn [obind].
    assert (EP : read_port (":"%byte :: p) = Some (sa_port a, [])) by (apply read_port_iff; eauto). rewrite EP. cbn [obind].
    destruct a; cbn in *; subst. reflexivity.
Qed.
Lemma v6_iff s a z : (exists r, read_sockaddr6 s = Some (a, z, r) /\ r = []) <-> exists n, sa_ip a = V6 n /\ sockaddr_text s a z.
Proof.
  unfold read_sockaddr6. split.
  - intros (r0 & H & ->). destruct (read_char "[" s) as [r|] eqn:C; [|discriminate]. cbn [obind] in H. apply read_char_sound in C as ->.
    destruct (read_ipv6 r) as [[n r1]|] eqn:E6; [|discriminate]. cbn [obind] in H.
    destruct (read_scope r1) as [z' r2] eqn:ES. destruct (read_char "]" r2) as [r3|] eqn:C2; [|discriminate]. cbn [obind] in H. apply read_char_sound in C2 as ->.
    destruct (read_port r3) as [[p r4]|] eqn:EP; [|discriminate]. cbn [obind] in H. injection H as <- -> ->. apply read_port_iff in EP as (ps & -> & P).
    exists n. split; [reflexivity|]. unfold sockaddr_text. cbn [sa_ip sa_port]. unfold read_scope in ES.
    destruct (read_char "%" r1) as [r5|] eqn:C3; cbn [obind] in ES.
    + apply read_char_sound in C3 as ->. apply read_ipv6_alien in E6 as (t & -> & T); [|exact alien_percent].
      destruct (read_decimal (2 ^ 32 - 1) r5) as [[v r6]|] eqn:ED; [|injection ES as _ X; discriminate X]. injection ES as -> ->.
      apply read_decimal_iff in ED as (d & -> & D & L & _). exists t, ("%"%byte :: d), ps. split; [rewrite <- ?app_assoc; cbn [app]; now rewrite <- ?app_assoc|].
      split; [exact T|]. split; [|exact P]. right. exists d. split; [reflexivity|]. split; [exact D|]. change (2 ^ 32 - 1) with 4294967295 in L. change (2 ^ 32) with 4294967296. lia.
    + injection ES as <- ->. apply read_ipv6_alien in E6 as (t & -> & T); [|exact alien_bracket]. exists t, [], ps. split; [reflexivity|]. split; [exact T|]. split; [left; auto|exact P].
  - intros (n & E & H). unfold sockaddr_text in H. rewrite E in H. destruct H as (t & sc & p & -> & T & SC & P). exists []. split; [|reflexivity].
    cbn [read_char]. rewrite beqb_refl. cbn [obind].
    assert (EP : read_port (":"%byte :: p) = Some (sa_port a, [])) by (apply read_port_iff; eauto).
    destruct SC as [(-> & ->)|(d & -> & D & L)]; cbn [app].
    + rewrite (proj2 (read_ipv6_alien _ n "]"%byte _ alien_bracket)) by eauto. cbn [obind]. unfold read_scope. cbn [read_char].
      destruct (beqb_spec "]"%byte "%"%byte); [discriminate|]. cbn [obind read_char]. rewrite beqb_refl. cbn [obind]. rewrite EP. cbn [obind].
      destruct a; cbn in *; subst. reflexivity.
    + rewrite (proj2 (read_ipv6_alien _ n "%"%byte _ alien_percent)) by eauto. cbn [obind]. unfold read_scope. cbn [read_char]. rewrite beqb_refl. cbn [obind].
      rewrite (proj2 (read_decimal_iff (2 ^ 32 - 1) _ z ("]"%byte :: ":"%byte :: p))).
      2:{ exists d. split; [reflexivity|]. split; [exact D|]. split; [change (2 ^ 32 - 1) with 4294967295; change (2 ^ 32) with 4294967296 in L; lia|reflexivity]. }
      cbn [read_char]. rewrite beqb_refl. cbn [obind]. rewrite EP. cbn [obind]. destruct a; cbn in *; subst. reflexivity.
Qed.
Lemma read_sockaddr4_v4 s a z r : read_sockaddr4 s = Some (a, z, r) -> exists n, sa_ip a = V4 n.
Proof.
  unfold read_sockaddr4. destruct (read_ipv4 s) as [[n r1]|]; [|discriminate]. cbn [obind]. destruct (read_port r1) as [[p r2]|]; [|discriminate].
  intros X. injection X as <- _ _. cbn. eauto.
Qed.
Lemma read_sockaddr6_v6 s a z r : read_sockaddr6 s = Some (a, z, r) -> exists n, sa_ip a = V6 n.
Proof.
  unfold read_sockaddr6. destruct (read_char "[" s) as [r0|]; [|discriminate]. cbn [obind]. destruct (read_ipv6 r0) as [[n r1]|]; [|discriminate]. cbn [obind].
  destruct (read_scope r1) as [z' r2]. destruct (read_char "]" r2) as [r3|]; [|discriminate]. cbn [obind]. destruct (read_port r3) as [[p r4]|]; [|discriminate].
  intros X. injection X as <- _ _. cbn. eauto.
Qed.
Lemma v4_not_bracket s : read_ipv4 ("["%byte :: s) = None.
Proof. reflexivity. Qed.
Lemma parse_sockaddr_iff s a z : parse_sockaddr s = Some (a, z) <-> sockaddr_text s a z.
Proof.
  unfold parse_sockaddr. split.
  - destruct (read_sockaddr4 s) as [[[a4 z4] r4]|] eqn:E4.
    + destruct r4; [|discriminate]. intros X; injection X as -> ->. destruct (proj1 (v4_iff s a z)) as (n & _ & T); eauto.
    + destruct (read_sockaddr6 s) as [[[a6 z6] r6]|] eqn:E6; [|discriminate]. destruct r6; [|discriminate]. intros X; injection X as -> ->.
      destruct (proj1 (v6_iff s a z)) as (n & _ & T); eauto.
  - intros T. destruct (sa_ip a) as [n|n] eqn:E.
    + destruct (proj2 (v4_iff s a z)) as (r & -> & ->); eauto.
    + destruct (proj2 (v6_iff s a z)) as (r & E6 & ->); eauto.
      assert (read_sockaddr4 s = None) as ->.
      { unfold sockaddr_text in T. rewrite E in T. destruct T as (t & sc & p & -> & _). reflexivity. }
      rewrite E6. reflexivity.
Qed.
Lemma dec_port p : decimal_text (dec p) p.
Proof.
  split; [apply dec_nonnil|]. rewrite (run_val_number10 _ _ (Forall2_digits _ (dec_digits p))), run_val_digits, dec_val. reflexivity.
Qed.
Lemma show_sockaddr_text a : wf_sa a -> sockaddr_text (show_sockaddr a) a 0.
Proof.
  intros (W & P). unfold sockaddr_text, show_sockaddr. pose proof (show_address _ W) as T. destruct (sa_ip a) as [n|n]; cbn [show_ip address_text] in T.
  - exists (show_ipv4 n), (dec (sa_port a)). split; [reflexivity|]. split; [exact T|]. split; [|reflexivity]. split; [apply dec_port|exact P].
  - exists (show_ipv6 n), [], (dec (sa_port a)). split; [reflexivity|]. split; [exact T|]. split; [left; auto|]. split; [apply dec_port|exact P].
Qed.

Lemma sockaddr_text_inj s a a' z z' : sockaddr_text s a z -> sockaddr_text s a' z' -> a' = a /\ z' = z.
Proof. intros H H'. apply parse_sockaddr_iff in H, H'. rewrite H in H'. injection H' as -> ->. auto. Qed.
Lemma parse_peer_iff s p z : parse_peer s = Some (p, z) <-> sockaddr_text s (pr_addr p) z /\ pr_id p = None /\ pr_crypto p = false.
Proof.
  unfold parse_peer. split.
  - destruct (parse_sockaddr s) as [[a w]|] eqn:E; [|discriminate]. cbn. intros [= <- <-]. apply parse_sockaddr_iff in E. auto.
  - intros (H & ? & ?). apply parse_sockaddr_iff in H. rewrite H. destruct p; cbn in *. subst. reflexivity.
Qed.
