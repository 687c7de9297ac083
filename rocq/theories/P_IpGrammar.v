(** The parser of M_IpText accepts exactly the grammar of S_IpText. *)
From Verif Require Import Base BaseFacts S_Types P_Types M_Net M_IpText P_IpText S_IpText M_Tracker M_Udp P_UdpSession.

(** ** Digits *)
Lemma F2_length {A B} (R : A -> B -> Prop) l m : Forall2 R l m -> length l = length m.
Proof. induction 1; cbn; congruence. Qed.
Lemma digit16 b : digit_val 16 b = hex_value b.
Proof. destruct b; reflexivity. Qed.
Lemma digit10_inv b v : digit_val 10 b = Some v -> is_digit b = true /\ v = b2n b - 48.
Proof.
  intros H. destruct (is_digit b) eqn:E.
  - rewrite digit10 in H by auto. split; congruence.
  - rewrite digit10_none in H by auto. discriminate.
Qed.
Lemma take_run_sound radix inp : forall ds r, take_run radix inp = (ds, r) ->
  exists s, inp = s ++ r /\ Forall2 (fun b v => digit_val radix b = Some v) s ds /\
    match r with [] => True | c :: _ => digit_val radix c = None end.
Proof.
  induction inp as [|c inp IH]; intros ds r; cbn [take_run].
  - intros X; injection X as <- <-. exists []. auto.
  - destruct (digit_val radix c) as [d|] eqn:E.
    + destruct (take_run radix inp) as [ds' r'] eqn:T. intros X; injection X as <- <-.
      destruct (IH _ _ eq_refl) as (s & -> & F & R). exists (c :: s). split; [reflexivity|]. split; auto.
    + intros X; injection X as <- <-. exists []. auto.
Qed.
Lemma run_val_gen radix ds : forall a, fold_left (fun a d => a * radix + d) ds a = a * radix ^ N.of_nat (length ds) + run_val radix ds.
Proof.
  unfold run_val. induction ds as [|d ds IH]; intros a; cbn [fold_left length].
  - cbn. lia.
  - rewrite IH, (IH (0 * radix + d)). rewrite Nat2N.inj_succ, N.pow_succ_r'. nia.
Qed.
Lemma run_val_number s : forall ds, Forall2 (fun b v => digit_val 16 b = Some v) s ds ->
  number 16 hex_value s = Some (run_val 16 ds).
Proof.
  induction s as [|b s IH]; intros ds F; inversion F as [|? v ? vs H F']; subst; cbn [number]; [reflexivity|].
  rewrite <- digit16, H. cbn [obind]. rewrite (IH _ F'). cbn [obind]. f_equal.
  unfold run_val at 2. cbn [fold_left]. rewrite run_val_gen. rewrite (F2_length _ _ _ F'). lia.
Qed.
Lemma number_run s n : number 16 hex_value s = Some n -> exists ds, Forall2 (fun b v => digit_val 16 b = Some v) s ds /\ run_val 16 ds = n.
Proof.
  intros H.
  assert (E : exists ds, Forall2 (fun b v => digit_val 16 b = Some v) s ds).
  { revert n H. induction s as [|b s IH]; intros n; cbn [number]; [exists []; constructor|].
    destruct (hex_value b) as [d|] eqn:D; [|discriminate]. cbn [obind].
    destruct (number 16 hex_value s) as [m|] eqn:M; [|discriminate]. intros _.
    destruct (IH _ eq_refl) as (ds & F). exists (d :: ds). constructor; auto. now rewrite digit16. }
  destruct E as (ds & F). exists ds. split; auto. rewrite (run_val_number _ _ F) in H. congruence.
Qed.
Lemma run_val_lt ds s : Forall2 (fun b v => digit_val 16 b = Some v) s ds -> run_val 16 ds < 16 ^ N.of_nat (length ds).
Proof.
  induction 1 as [|b v s ds H F IH]; [reflexivity|]. unfold run_val. cbn [fold_left]. rewrite run_val_gen. cbn [length].
  assert (v < 16). { rewrite digit16 in H. clear -H. destruct b; cbv in H; try discriminate; injection H as <-; reflexivity. }
  rewrite Nat2N.inj_succ, N.pow_succ_r'. fold (run_val 16 ds). nia.
Qed.

(** ** Octets and groups *)
Lemma read_octet_sound inp v r : read_octet inp = Some (v, r) -> v < 256 /\ inp = dec v ++ r.
Proof.
  unfold read_octet, read_number. destruct (take_run 10 inp) as [ds r'] eqn:T.
  destruct (Nat.eqb_spec (length ds) 0) as [|L0]; [discriminate|].
  destruct (Nat.ltb_spec 3 (length ds)) as [|L3]; [discriminate|].
  destruct (negb false && Nat.ltb 1 (length ds) && (hd 0 ds =? 0)) eqn:Z; [discriminate|].
  destruct (N.ltb_spec 255 (run_val 10 ds)) as [|V]; [discriminate|]. intros X; injection X as <- <-.
  apply take_run_sound in T as (s & -> & F & _). split; [lia|]. f_equal.
  assert (FD : Forall (fun b => is_digit b = true) s /\ ds = map (fun b => b2n b - 48) s).
  { clear -F. induction F as [|b v s ds H F IH]; cbn; [auto|]. apply digit10_inv in H as [H ->]. destruct IH as [I1 I2]. split; [constructor; auto|congruence]. }
  destruct FD as [FD ->]. rewrite run_val_digits. rewrite map_length in *.
  destruct s as [|b s]; [exfalso; apply L0; reflexivity|]. inversion FD as [|? ? D1 D2]; subst. apply is_digit_spec in D1.
  cbn [map hd length] in Z. destruct (N.eqb_spec (b2n b - 48) 0) as [E|E].
  - destruct s as [|c s]; [|discriminate]. assert (b2n b = 48) by lia.
    assert (b = "0"%byte) as -> by (apply b2n_inj; assumption). reflexivity.
  - symmetry. apply dec_canonical; auto. lia.
Qed.
Lemma read_char_sound c inp r : read_char c inp = Some r -> inp = c :: r.
Proof. destruct inp as [|x inp]; cbn; [discriminate|]. destruct (beqb_spec x c); [|discriminate]. congruence. Qed.

Lemma read_ipv4_sound inp n r : read_ipv4 inp = Some (n, r) -> exists s, inp = s ++ r /\ ipv4_text s n.
Proof.
  unfold read_ipv4. intros H.
  destruct (read_octet inp) as [[a r1]|] eqn:A; [|discriminate]. cbn [obind] in H. apply read_octet_sound in A as [Ha ->].
  destruct (read_char "." r1) as [r2|] eqn:C1; [|discriminate]. cbn [obind] in H. apply read_char_sound in C1 as ->.
  destruct (read_octet r2) as [[b r3]|] eqn:B; [|discriminate]. cbn [obind] in H. apply read_octet_sound in B as [Hb ->].
  destruct (read_char "." r3) as [r4|] eqn:C2; [|discriminate]. cbn [obind] in H. apply read_char_sound in C2 as ->.
  destruct (read_octet r4) as [[c r5]|] eqn:C; [|discriminate]. cbn [obind] in H. apply read_octet_sound in C as [Hc ->].
  destruct (read_char "." r5) as [r6|] eqn:C3; [|discriminate]. cbn [obind] in H. apply read_char_sound in C3 as ->.
  destruct (read_octet r6) as [[d r7]|] eqn:D; [|discriminate]. cbn [obind] in H. apply read_octet_sound in D as [Hd ->].
  injection H as <- <-. exists (dec a ++ "."%byte :: dec b ++ "."%byte :: dec c ++ "."%byte :: dec d). split.
  - repeat (rewrite <- ?app_assoc; cbn [app]). reflexivity.
  - exists a, b, c, d. auto 10.
Qed.
Lemma read_ipv4_complete s n r : ipv4_text s n -> match r with [] => True | c :: _ => is_digit c = false end ->
  read_ipv4 (s ++ r) = Some (n, r).
Proof.
  intros (a & b & c & d & Ha & Hb & Hc & Hd & -> & ->) Hr.
  repeat (rewrite <- ?app_assoc; cbn [app]). unfold read_ipv4.
  rewrite read_octet_dec by (auto; reflexivity). cbn [obind read_char]. rewrite beqb_refl. cbn [obind].
  rewrite read_octet_dec by (auto; reflexivity). cbn [obind read_char]. rewrite beqb_refl. cbn [obind].
  rewrite read_octet_dec by (auto; reflexivity). cbn [obind read_char]. rewrite beqb_refl. cbn [obind].
  rewrite read_octet_dec by auto. reflexivity.
Qed.
Lemma ipv4_no_colon s n : ipv4_text s n -> n < 2 ^ 32.
Proof. intros (a & b & c & d & ? & ? & ? & ? & _ & ->). change (2 ^ 32) with (256 * 256 * 256 * 256). nia. Qed.

Lemma read_group_sound inp g r : read_number 16 4 true 65535 inp = Some (g, r) -> exists s, inp = s ++ r /\ hex_group s g.
Proof.
  unfold read_number. destruct (take_run 16 inp) as [ds r'] eqn:T.
  destruct (Nat.eqb_spec (length ds) 0) as [|L0]; [discriminate|].
  destruct (Nat.ltb_spec 4 (length ds)) as [|L3]; [discriminate|]. cbn [negb andb].
  destruct (N.ltb_spec 65535 (run_val 16 ds)) as [|V]; [discriminate|]. intros X; injection X as <- <-.
  apply take_run_sound in T as (s & -> & F & _). exists s. split; auto. split.
  - rewrite (F2_length _ _ _ F). lia.
  - now apply run_val_number.
Qed.
Lemma read_group_complete s g r : hex_group s g -> colon_or_end r ->
  read_number 16 4 true 65535 (s ++ r) = Some (g, r) /\ read_ipv4 (s ++ r) = None.
Proof.
  intros [L H] Hr. apply number_run in H as (ds & F & <-). split.
  - unfold read_number. erewrite take_run_app; eauto.
    2:{ destruct r; auto. cbn in Hr. subst. reflexivity. }
    pose proof (F2_length _ _ _ F) as FL. pose proof (run_val_lt _ _ F) as V.
    destruct (Nat.eqb_spec (length ds) 0); [lia|]. destruct (Nat.ltb_spec 4 (length ds)); [lia|]. cbn [negb andb].
    assert (16 ^ N.of_nat (length ds) <= 16 ^ 4) by (apply N.pow_le_mono_r; lia). change (16 ^ 4) with 65536 in *.
    destruct (N.ltb_spec 65535 (run_val 16 ds)); [lia|reflexivity].
  - apply read_ipv4_none. eapply take_run10_hex; eauto.
Qed.

(** ** Lists of groups *)
Definition sep (first : bool) (s : bytes) : bytes := if first then s else ":"%byte :: s.
Lemma read_sep_sound {A} first (f : bytes -> option (A * bytes)) inp x : read_sep first f inp = Some x ->
  exists s, inp = sep first s /\ f s = Some x.
Proof.
  unfold read_sep. destruct first; cbn [sep]; [eauto|].
  destruct (read_char ":" inp) as [r|] eqn:C; [|discriminate]. apply read_char_sound in C as ->. cbn [obind]. eauto.
Qed.
Lemma read_sep_eq {A} first (f : bytes -> option (A * bytes)) s : read_sep first f (sep first s) = f s.
Proof. destruct first; [reflexivity|]. cbn [read_sep sep read_char]. now rewrite beqb_refl. Qed.
Lemma sep_app first s r : sep first s ++ r = sep first (s ++ r).
Proof. destruct first; reflexivity. Qed.

Lemma read_groups_sound limit : forall first inp gs f r, read_groups limit first inp = (gs, f, r) ->
  (gs = [] /\ f = false /\ r = inp) \/ (exists s, inp = sep first s ++ r /\ hex_groups s gs f).
Proof.
  induction limit as [|l IH]; intros first inp gs f r; cbn [read_groups].
  - intros X; injection X as <- <- <-. auto.
  - destruct (match l with O => None | S _ => read_sep first read_ipv4 inp end) as [[v4 r4]|] eqn:E4.
    + destruct l; [discriminate|]. apply read_sep_sound in E4 as (s & -> & E4). apply read_ipv4_sound in E4 as (s4 & -> & T).
      intros X; injection X as <- <- <-. right. exists s4. rewrite sep_app. split; auto. now constructor.
    + clear E4. destruct (read_sep first (read_number 16 4 true 65535) inp) as [[g rg]|] eqn:E6.
      * apply read_sep_sound in E6 as (s & -> & E6). apply read_group_sound in E6 as (sg & -> & G).
        destruct (read_groups l false rg) as [[gs' f'] r'] eqn:E. intros X; injection X as <- <- <-. right.
        apply IH in E as [(-> & -> & ->)|(s' & -> & H)].
        -- exists sg. rewrite sep_app. split; auto. now constructor.
        -- cbn [sep]. exists (sg ++ ":"%byte :: s'). rewrite sep_app. split; [|now constructor].
           now rewrite <- app_assoc.
      * intros X; injection X as <- <- <-. auto.
Qed.

Lemma hex_groups_nonnil s l f : hex_groups s l f -> l <> [].
Proof. destruct 1; discriminate. Qed.
Lemma read_groups_complete s l f : hex_groups s l f -> forall limit first r,
  (length l <= limit)%nat -> (if f then r = [] else stop r) -> read_groups limit first (sep first s ++ r) = (l, f, r).
Proof.
  induction 1 as [s g G|s n T|s g s' l f G H IH]; intros limit first r HL Hr; destruct limit as [|limit]; try (cbn in HL; lia);
    cbn [read_groups]; rewrite sep_app, !read_sep_eq.
  - destruct (read_group_complete s g r G (stop_colon _ Hr)) as [-> ->].
    rewrite read_groups_stop by auto. destruct limit; reflexivity.
  - subst r. destruct limit as [|limit]; [cbn in HL; lia|].
    rewrite (read_ipv4_complete s n [] T) by exact Logic.I. reflexivity.
  - rewrite <- app_assoc. cbn [app].
    destruct (read_group_complete s g (":"%byte :: s' ++ r) G eq_refl) as [-> ->].
    change (":"%byte :: s' ++ r) with (sep false s' ++ r). rewrite IH; [|cbn in HL; lia|auto].
    destruct limit; reflexivity.
Qed.
Lemma some_groups_complete s l f limit r : some_groups s l f -> (length l <= limit)%nat -> (if f then r = [] else stop r) ->
  read_groups limit true (s ++ r) = (l, f, r).
Proof.
  intros [(-> & -> & ->)|H] HL Hr; [now apply read_groups_stop|]. exact (read_groups_complete s l f H limit true r HL Hr).
Qed.

Lemma read_groups_len limit : forall first inp gs f r, read_groups limit first inp = (gs, f, r) -> (length gs <= limit)%nat.
Proof.
  induction limit as [|k IH]; intros first inp gs f r; cbn [read_groups].
  - intros X; injection X as <- <- <-. cbn; lia.
  - destruct (match k with O => None | S _ => read_sep first read_ipv4 inp end) as [[v4 r4]|] eqn:E4.
    + destruct k; [discriminate|]. intros X; injection X as <- <- <-. cbn; lia.
    + destruct (read_sep first (read_number 16 4 true 65535) inp) as [[g rg]|].
      * destruct (read_groups k false rg) as [[gs' f'] r'] eqn:E. intros X; injection X as <- <- <-. apply IH in E. cbn; lia.
      * intros X; injection X as <- <- <-. cbn; lia.
Qed.
Lemma read_groups_some limit inp gs f r : read_groups limit true inp = (gs, f, r) -> exists s, inp = s ++ r /\ some_groups s gs f.
Proof.
  intros E. apply read_groups_sound in E as [(-> & -> & ->)|(s & -> & H)]; [exists []|exists s]; unfold some_groups; auto.
Qed.

Lemma read_ipv6_sound s n : read_ipv6 s = Some (n, []) -> ipv6_text s n.
Proof.
  unfold read_ipv6. destruct (read_groups 8 true s) as [[head head4] r] eqn:E.
  pose proof (read_groups_len _ _ _ _ _ _ E) as LH. apply read_groups_some in E as (a & -> & A).
  destruct (Nat.eqb_spec (length head) 8) as [L|L].
  - intros X; injection X as <- ->. left. destruct A as [(_ & -> & _)|H]; [discriminate L|].
    rewrite app_nil_r. exists head, head4. auto.
  - destruct head4; [discriminate|].
    destruct (read_char ":" r) as [r1|] eqn:C1; [|discriminate]. cbn [obind]. apply read_char_sound in C1 as ->.
    destruct (read_char ":" r1) as [r2|] eqn:C2; [|discriminate]. cbn [obind]. apply read_char_sound in C2 as ->.
    destruct (read_groups (8 - (length head + 1)) true r2) as [[tail f] r3] eqn:T.
    pose proof (read_groups_len _ _ _ _ _ _ T) as LT. apply read_groups_some in T as (b & -> & B).
    intros X; injection X as <- ->. right. rewrite app_nil_r. exists a, head, b, tail, f.
    split; [reflexivity|]. split; [exact A|]. split; [exact B|]. split; [lia|reflexivity].
Qed.
Lemma read_ipv6_complete s n : ipv6_text s n -> read_ipv6 s = Some (n, []).
Proof.
  unfold read_ipv6. intros [(l & f & H & L & ->)|(a & la & b & lb & f & -> & A & B & L & ->)].
  - assert (E : read_groups 8 true (s ++ []) = (l, f, [])).
    { apply some_groups_complete; [now right|lia|]. destruct f; [reflexivity|now left]. }
    rewrite app_nil_r in E. rewrite E, L. reflexivity.
  - rewrite (some_groups_complete a la false 8 (":"%byte :: ":"%byte :: b) A ltac:(lia) ltac:(right; eauto)).
    destruct (Nat.eqb_spec (length la) 8); [lia|]. cbn [read_char]. rewrite beqb_refl. cbn [obind read_char]. rewrite beqb_refl. cbn [obind].
    assert (E : read_groups (8 - (length la + 1)) true (b ++ []) = (lb, f, [])).
    { apply some_groups_complete; [auto|lia|]. destruct f; [reflexivity|now left]. }
    rewrite app_nil_r in E. rewrite E. reflexivity.
Qed.

Lemma groups_not_v4 s l f r : hex_groups s l f -> (f = true -> (2 < length l)%nat) -> colon_or_end r -> read_ipv4 (s ++ r) = None.
Proof.
  destruct 1 as [s g G|s n T|s g s' l f G H]; intros HL Hr.
  - now apply (read_group_complete s g).
  - specialize (HL eq_refl). cbn in HL. lia.
  - rewrite <- app_assoc. cbn [app]. now apply (read_group_complete s g (":"%byte :: s' ++ r) G).
Qed.
Lemma ipv6_not_v4 s n : ipv6_text s n -> read_ipv4 s = None.
Proof.
  intros [(l & f & H & L & _)|(a & la & b & lb & f & -> & A & _)].
  - rewrite <- (app_nil_r s). eapply groups_not_v4; eauto; [intros; lia|exact Logic.I].
  - destruct A as [(-> & _)|H]; [apply read_ipv4_colon|]. eapply groups_not_v4; eauto; [discriminate|reflexivity].
Qed.

Lemma parse_ip_grammar s i : parse_ip s = Some i <-> address_text s i.
Proof.
  unfold parse_ip. split.
  - destruct (read_ipv4 s) as [[n r]|] eqn:E4.
    + destruct r; [|discriminate]. intros X; injection X as <-. apply read_ipv4_sound in E4 as (s' & -> & T). now rewrite app_nil_r.
    + destruct (read_ipv6 s) as [[n [|]]|] eqn:E6; try discriminate. intros X; injection X as <-. now apply read_ipv6_sound.
  - destruct i as [n|n]; cbn [address_text]; intros H.
    + pose proof (read_ipv4_complete s n [] H Logic.I) as E. rewrite app_nil_r in E. now rewrite E.
    + rewrite (ipv6_not_v4 s n H). now rewrite (read_ipv6_complete s n H).
Qed.

(** ** UDP tracker URLs *)
Lemma has_colon_iff s : has_colon s = true <-> In ":"%byte s.
Proof.
  unfold has_colon. rewrite existsb_exists. split.
  - intros (x & H & E). destruct (beqb_spec x ":"%byte); [now subst|discriminate].
  - intros H. exists ":"%byte. auto using beqb_refl.
Qed.
Lemma dec_no_colon k : ~ In ":"%byte (dec k).
Proof. intros H. pose proof (dec_digits k) as F. rewrite Forall_forall in F. apply F in H. discriminate. Qed.
Lemma ipv4_text_no_colon s n : ipv4_text s n -> ~ In ":"%byte s.
Proof.
  intros (a & b & c & d & _ & _ & _ & _ & -> & _) H.
  repeat (rewrite ?in_app_iff in H; cbn [In] in H).
  repeat match goal with H : _ \/ _ |- _ => destruct H as [H|H] end; try discriminate; eapply dec_no_colon; eassumption.
Qed.
Lemma ipv6_text_colon s n : ipv6_text s n -> In ":"%byte s.
Proof.
  intros [(l & f & H & L & _)|(a & la & b & lb & f & -> & _)]; [|rewrite in_app_iff; cbn; auto].
  destruct H as [? ? ?|? ? ?|? ? ? ? ? ? ?]; [discriminate|discriminate|rewrite in_app_iff; cbn; auto].
Qed.
Lemma show_address i : wf_ip i -> address_text (show_ip i) i.
Proof. intros H. apply parse_ip_grammar. now apply parse_show_ip. Qed.

Lemma udp_url_shown u x : udp_url_of u = Ok x ->
  match u_host u with Some (HDomain d) => ~ In ":"%byte d | Some (HIp i) => wf_ip i | None => True end ->
  exists host port, url_host_text (u_host u) host /\ u_port u = Some port /\ show_udp_url x = bs "udp://" ++ host ++ ":"%byte :: dec port ++ u_path u ++ match u_query u with Some q => bs "?" ++ q | None => [] end.
Proof.
  intros H W. pose proof (udp_url_spec u) as U. rewrite H in U. destruct U as (_ & EP & ED & EH).
  unfold show_udp_url. rewrite ED. 
  exists (if has_colon (uu_host x) then ["["%byte] ++ uu_host x ++ ["]"%byte] else uu_host x), (uu_port x).
  split; [|split; auto].
  destruct (u_host u) as [[d|i]|]; cbn [url_host_text]; [| |destruct EH].
  - rewrite EH. destruct (has_colon d) eqn:E; auto. now apply has_colon_iff in E.
  - rewrite EH. pose proof (show_address i W) as A. destruct i as [n|n]; cbn [address_text] in A.
    + destruct (has_colon _) eqn:E; auto. apply has_colon_iff in E. now apply ipv4_text_no_colon in A.
    + rewrite (proj2 (has_colon_iff _) (ipv6_text_colon _ _ A)). eauto.
Qed.
