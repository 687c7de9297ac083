From Verif Require Import Base BaseFacts S_Utf8 M_Utf8 S_Types M_Types P_Types M_Net M_Tracker M_Udp M_Form S_Form P_Form M_Http P_Http M_Magnet S_Magnet P_Magnet S_Magnet2.

Lemma hex_decode_len : forall n s, (length s <= n)%nat -> forall h, hex_decode s = Some h -> length s = (2 * length h)%nat /\ is_numeral hex_value s.
Proof.
  induction n as [|n IH]; intros s L h H; (destruct s as [|a [|b r]]; [injection H as <-; split; [reflexivity|constructor]|discriminate|]); cbn [length] in L; [lia|].
  cbn [hex_decode] in H. destruct (hex_sym a) as [x|] eqn:EA; [|discriminate]. destruct (hex_sym b) as [y|] eqn:EB; [|discriminate]. cbn [obind] in H.
  destruct (hex_decode r) as [t|] eqn:ER; [|discriminate]. cbn [obind] in H. injection H as <-. destruct (IH r ltac:(lia) t ER) as (E1 & E2). cbn [length].
  split; [lia|]. rewrite hex_sym_spec in EA, EB. constructor; [congruence|]. constructor; [congruence|exact E2].
Qed.
Lemma hash_refused_iff x e : parse_info_hash x = Err e <-> hash_refused x e.
Proof.
  unfold parse_info_hash, hash_refused. destruct (Nat.eqb_spec (length x) 32) as [L|L].
  - unfold from_base32. split.
    + destruct (b32_decode x) as [v|] eqn:E.
      * intros H. assert (A : exists h, parse_info_hash x = Ok h).
        { apply parse_accepts. right. split; [exact L|]. unfold b32_decode in E. destruct (b32_vals x) as [vs|] eqn:EV; [|discriminate].
          clear - EV. revert vs EV. induction x as [|c x IH]; intros vs EV; [constructor|]. cbn [b32_vals] in EV. destruct (b32_sym c) eqn:EC; [|discriminate]. cbn [obind] in EV.
          destruct (b32_vals x) eqn:E2; [|discriminate]. rewrite b32_sym_spec in EC. constructor; [congruence|]. eapply IH. reflexivity. }
        destruct A as (h & A). unfold parse_info_hash in A. rewrite L in A. cbn [Nat.eqb] in A. unfold from_base32 in A. rewrite E in A. congruence.
      * intros H. assert (e = InvalidBase32) by congruence. subst e. split; [exact L|]. intros X.
        assert (A : exists h, parse_info_hash x = Ok h) by (apply parse_accepts; right; auto). destruct A as (h & A). unfold parse_info_hash in A. rewrite L in A. cbn [Nat.eqb] in A. unfold from_base32 in A. rewrite E in A. discriminate A.
    + destruct e as [| |n]; [tauto| |tauto]. intros (_ & X). destruct (b32_decode x) as [v|] eqn:E; [|reflexivity]. exfalso. apply X.
      unfold b32_decode in E. destruct (b32_vals x) as [vs|] eqn:EV; [|discriminate].
      clear - EV. revert vs EV. induction x as [|c x IH]; intros vs EV; [constructor|]. cbn [b32_vals] in EV. destruct (b32_sym c) eqn:EC; [|discriminate]. cbn [obind] in EV.
      destruct (b32_vals x) eqn:E2; [|discriminate]. rewrite b32_sym_spec in EC. constructor; [congruence|]. eapply IH. reflexivity.
  - unfold from_hex. destruct (hex_decode x) as [v|] eqn:E.
    + destruct (hex_decode_len _ _ (le_n _) _ E) as (LV & NU). unfold info_hash_of_vec. destruct (Nat.eqb_spec (length v) 20) as [L2|L2].
      * split; [discriminate|]. destruct e as [| |n]; [|tauto|].
        -- intros (_ & [X|(k & X)]); [destruct (X NU)|lia].
        -- intros (_ & _ & X & Y). lia.
      * split.
        -- intros [= <-]. auto.
        -- destruct e as [| |n]; [|tauto|].
           ++ intros (_ & [X|(k & X)]); [destruct (X NU)|lia].
           ++ intros (_ & _ & X & Y). do 2 f_equal. lia.
    + split.
      * intros [= <-]. split; [exact L|]. destruct (Nat.Even_or_Odd (length x)) as [(k & EK)|O]; [|right; exact O]. left. intros NU. destruct (hex_decode_complete k x EK NU) as (h & X & _). congruence.
      * destruct e as [| |n]; [reflexivity|tauto|]. intros (_ & NU & EN & _). destruct (hex_decode_complete n x EN NU) as (h & X & _). congruence.
Qed.
Lemma xt_refused_iff v e : parse_xt v = Err e <-> xt_refused v e.
Proof.
  unfold parse_xt, xt_refused. destruct (strip_prefix (bs "urn:") v) as [s|] eqn:E1.
  - apply strip_prefix_spec in E1. subst v. destruct (strip_prefix (bs "btih:") s) as [x|] eqn:E2.
    + apply strip_prefix_spec in E2. subst s. rewrite app_assoc. change (bs "urn:" ++ bs "btih:") with (bs "urn:btih:"). destruct (parse_info_hash x) as [h|e'] eqn:E; cbn [res_map_err].
      * split; [discriminate|]. destruct e as [| |e']; [intros X; destruct (X _ eq_refl)|intros (_ & X); destruct (X _ eq_refl)|]. intros (x' & X & Y). apply app_inv_head in X. subst x'. apply hash_refused_iff in Y. congruence.
      * split.
        -- intros [= <-]. exists x. split; [reflexivity|]. apply hash_refused_iff. exact E.
        -- destruct e as [| |e2]; [intros X; destruct (X (bs "btih:" ++ x) eq_refl)|intros (_ & X); destruct (X _ eq_refl)|]. intros (x' & X & Y). apply app_inv_head in X. subst x'. apply hash_refused_iff in Y. congruence.
    + assert (NB : forall r, bs "urn:" ++ s <> bs "urn:btih:" ++ r).
      { intros r X. change (bs "urn:btih:" ++ r) with (bs "urn:" ++ (bs "btih:" ++ r)) in X. apply app_inv_head in X. apply strip_prefix_spec in X. congruence. }
      split.
      * intros [= <-]. split; [eauto|exact NB].
      * destruct e as [| |e2]; [intros X; destruct (X _ eq_refl)|reflexivity|]. intros (x & X & _). destruct (NB _ X).
  - assert (NU : forall r, v <> bs "urn:" ++ r) by (intros r X; apply strip_prefix_spec in X; congruence). split.
    + intros [= <-]. exact NU.
    + destruct e as [| |e2]; [reflexivity|intros ((r & X) & _); destruct (NU _ X)|intros (x & X & _)]. destruct (NU (bs "btih:" ++ x) X).
Qed.

Section P.
Variable parse_url : bytes -> option url.
Lemma tracker_refused_iff s e : tracker_from_str parse_url s = Err e <-> tracker_refused parse_url s e.
Proof.
  unfold tracker_from_str, tracker_refused. destruct (parse_url s) as [u|] eqn:U.
  - pose proof (tracker_dispatch u) as D. destruct (tracker_of u) as [t|e'] eqn:T; cbn [res_map_err].
    + split; [discriminate|]. destruct e as [|e]; [discriminate|]. intros (u' & X & Y). injection X as <-. exfalso. assert (S : supported u t) by (apply supported_iff; exact T).
      destruct S as [(A & B & _)|(A & h & p & B & C & _)]; destruct e as [sc| |].
      * tauto.
      * tauto.
      * destruct Y as (Y & _). rewrite Y in A. destruct A; discriminate.
      * tauto.
      * destruct Y as (_ & Y). destruct B as [B|(i & B & _)]; congruence.
      * destruct Y as (_ & _ & Y). congruence.
    + split.
      * intros [= <-]. exists u. split; [reflexivity|]. destruct e' as [sc'| |]; [destruct D as (-> & D1 & D2 & D3); split; [reflexivity|]; intros [X|[X|X]]; congruence|exact D|exact D].
      * destruct e as [|e]; [discriminate|]. intros (u' & X & Y). injection X as <-. do 2 f_equal. destruct e' as [sc'| |], e as [sc| |].
        -- destruct D as (D & _), Y as (Y & _). congruence.
        -- destruct D as (D & D1 & D2 & D3), Y as (Y & _). subst sc'. tauto.
        -- destruct D as (D & D1 & D2 & D3), Y as (Y & _). subst sc'. tauto.
        -- tauto.
        -- reflexivity.
        -- destruct D as (_ & D), Y as (_ & Y & _). congruence.
        -- destruct D as (D & _), Y as (_ & Y). tauto.
        -- destruct D as (_ & D & _), Y as (_ & Y). congruence.
        -- reflexivity.
  - split.
    + intros [= <-]. reflexivity.
    + destruct e; [reflexivity|]. intros (u & X & _). discriminate X.
Qed.

Lemma magnet_go_app a : forall b ih dn trs, magnet_go parse_url (a ++ b) ih dn trs = let? (ih', dn', trs') := magnet_go parse_url a ih dn trs in magnet_go parse_url b ih' dn' trs'.
Proof.
  induction a as [|[k v] a IH]; intros b ih dn trs; cbn [app magnet_go]; [reflexivity|].
  destruct (bytes_eqb k (bs "xt")).
  - destruct ih; [reflexivity|]. destruct (parse_xt v); cbn [res_map_err res_bind]; [apply IH|reflexivity].
  - destruct (bytes_eqb k (bs "dn")); [apply IH|]. destruct (bytes_eqb k (bs "tr")); [|apply IH]. destruct (tracker_from_str parse_url v); cbn [res_map_err res_bind]; [apply IH|reflexivity].
Qed.
Lemma fine_iff kvs : fine parse_url kvs <-> exists ih dn trs, magnet_go parse_url kvs None None [] = Ok (ih, dn, trs) /\ (ih = None <-> values (bs "xt") kvs = []).
Proof.
  split.
  - intros (X & T). assert (TS : exists ts, Forall2 (is_tracker parse_url) (values (bs "tr") kvs) ts).
    { clear X. induction T as [|s l (t & H) _ (ts & IH)]; [exists []; constructor|]. exists (t :: ts). constructor; assumption. }
    destruct TS as (ts & TS). destruct X as [X|(x & h & X & D)].
    + exists None, (or_else (last_value (bs "dn") kvs) None), ts. split; [|tauto]. apply magnet_go_spec. split; [left; auto|]. split; [reflexivity|]. exists ts. auto.
    + exists (Some h), (or_else (last_value (bs "dn") kvs) None), ts. split; [|rewrite X; split; discriminate]. apply magnet_go_spec. split; [|split; [reflexivity|]; exists ts; auto].
      right. split; [reflexivity|]. exists (bs "urn:btih:" ++ x), h. split; [exact X|]. split; [|reflexivity]. apply parse_xt_iff. eauto.
  - intros (ih & dn & trs & G & _). apply magnet_go_spec in G. destruct G as (X & _ & ts & _ & T). split.
    + destruct X as [(X & _)|(_ & v & h & X & P & _)]; [left; exact X|]. apply parse_xt_iff in P. destruct P as (x & -> & D). right. eauto.
    + clear - T. induction T; constructor; eauto.
Qed.
Lemma go_state kvs ih dn trs : magnet_go parse_url kvs None None [] = Ok (ih, dn, trs) -> (ih = None <-> values (bs "xt") kvs = []) /\ fine parse_url kvs.
Proof.
  intros G. assert (X : ih = None <-> values (bs "xt") kvs = []).
  { apply magnet_go_spec in G. destruct G as ([(X & ->)|(_ & v & h & X & _ & ->)] & _); [tauto|]. rewrite X. split; discriminate. }
  split; [exact X|]. apply fine_iff. eauto 6.
Qed.
Lemma magnet_go_err kvs e : magnet_go parse_url kvs None None [] = Err e <->
  exists pre k v post, kvs = pre ++ (k, v) :: post /\ fine parse_url pre /\
    ((k = bs "xt" /\ values (bs "xt") pre = [] /\ exists x, xt_refused v x /\ e = InvalidXt x) \/
     (k = bs "xt" /\ values (bs "xt") pre <> [] /\ e = MultipleXt) \/
     (k = bs "tr" /\ exists x, tracker_refused parse_url v x /\ e = InvalidTracker x)).
Proof.
  split.
  - induction kvs as [|[k v] kvs IH] using rev_ind; [discriminate|]. rewrite magnet_go_app. destruct (magnet_go parse_url kvs None None []) as [[[ih dn] trs]|e'] eqn:G; cbn [res_bind].
    + intros H. destruct (go_state _ _ _ _ G) as (IE & F). exists kvs, k, v, []. split; [reflexivity|]. split; [exact F|]. cbn [magnet_go] in H.
      destruct (bytes_eqb_spec k (bs "xt")) as [->|_].
      * destruct ih as [h|].
        -- right. left. split; [reflexivity|]. split; [|congruence]. intros X. apply IE in X. discriminate X.
        -- left. split; [reflexivity|]. split; [apply IE; reflexivity|]. destruct (parse_xt v) as [h|x] eqn:P; cbn [res_map_err res_bind] in H; [discriminate|]. exists x. split; [apply xt_refused_iff; exact P|congruence].
      * destruct (bytes_eqb k (bs "dn")); [discriminate|]. destruct (bytes_eqb_spec k (bs "tr")) as [->|_]; [|discriminate]. right. right. split; [reflexivity|].
        destruct (tracker_from_str parse_url v) as [t|x] eqn:P; cbn [res_map_err res_bind] in H; [discriminate|]. exists x. split; [apply tracker_refused_iff; exact P|congruence].
    + intros H. assert (e' = e) by congruence. subst e'. destruct (IH eq_refl) as (pre & k' & v' & post & -> & F & C). exists pre, k', v', (post ++ [(k, v)]). split; [rewrite <- app_assoc; reflexivity|]. auto.
  - intros (pre & k & v & post & -> & F & C). apply fine_iff in F. destruct F as (ih & dn & trs & G & IE). rewrite magnet_go_app, G. cbn [res_bind magnet_go].
    destruct C as [(-> & NX & x & P & ->)|[(-> & NX & ->)|(-> & x & P & ->)]].
    + apply IE in NX. subst ih. apply xt_refused_iff in P. rewrite bytes_eqb_refl, P. reflexivity.
    + destruct ih as [h|]; [rewrite bytes_eqb_refl; reflexivity|]. destruct (NX (proj1 IE eq_refl)).
    + apply tracker_refused_iff in P. rewrite tr_xt, tr_dn, bytes_eqb_refl, P. reflexivity.
Qed.
Lemma magnet_reason s e : magnet_from_str parse_url s = Err e <-> magnet_refused parse_url s e.
Proof.
  unfold magnet_from_str, magnet_refused. destruct (parse_url s) as [u|].
  2:{ split; [intros [= <-]; auto|]. intros [(_ & ->)|(u & X & _)]; [reflexivity|discriminate]. }
  destruct (bytes_eqb_spec (u_scheme u) (bs "magnet")) as [SC|SC]; cbn [negb].
  2:{ split.
      - intros [= <-]. right. exists u. auto.
      - intros [(X & _)|(u' & X & [(_ & ->)|(Y & _)])]; [discriminate|reflexivity|]. injection X as <-. destruct (SC Y). }
  destruct (form_total (query_text (u_query u))) as (raw & F & UF). rewrite (query_pairs_eq _ _ F). set (kvs := map (lossy_pair from_utf8_lossy) raw).
  assert (EQ : ((parse_url s = None /\ e = MgUrl) \/ False) -> True) by auto. clear EQ.
  transitivity (link_refused parse_url kvs e).
  - unfold link_refused. rewrite <- magnet_go_err. destruct (magnet_go parse_url kvs None None []) as [[[ih dn] trs]|e'] eqn:G; cbn [res_bind].
    + destruct (go_state _ _ _ _ G) as (IE & FI). split.
      * destruct ih as [h|]; [discriminate|]. intros [= <-]. left. split; [exact FI|]. split; [apply IE; reflexivity|reflexivity].
      * intros [(_ & X & ->)|X]; [|discriminate]. apply IE in X. subst ih. reflexivity.
    + split; [intros [= <-]; right; reflexivity|]. intros [(X & _)|X]; [|congruence]. apply fine_iff in X. destruct X as (? & ? & ? & X & _). congruence.
  - split.
    + intros L. right. exists u. split; [reflexivity|]. right. split; [exact SC|]. exists raw. auto.
    + intros [(X & _)|(u' & X & [(Y & _)|(_ & raw' & F' & L)])]; [discriminate| |]; injection X as <-; [destruct (Y SC)|]. rewrite (UF _ F') in L. exact L.
Qed.
Lemma magnet_accepted s m : magnet_from_str parse_url s = Ok m <-> exists u raw, parse_url s = Some u /\ form (query_text (u_query u)) raw /\
  u_scheme u = bs "magnet" /\ magnet_says (is_tracker parse_url) (map (lossy_pair from_utf8_lossy) raw) m.
Proof.
  split.
  - intros H. destruct (parse_url s) as [u|] eqn:U; [|unfold magnet_from_str in H; rewrite U in H; discriminate]. destruct (form_total (query_text (u_query u))) as (raw & F & _).
    exists u, raw. split; [reflexivity|]. split; [exact F|]. apply (magnet_fields parse_url s u raw U F). exact H.
  - intros (u & raw & U & F & H). apply (magnet_fields parse_url s u raw U F). exact H.
Qed.
End P.

Section Files.
Variable parse_url : bytes -> option url.
Lemma file_reason content ls n e : lines content ls ->
  (parse_magnets_file parse_url content = Err (MFParse n e) <->
   exists pre l post, ls = pre ++ l :: post /\ n = (length pre + 1)%nat /\
     Forall (fun l => exists t, trimmed l t /\ (ignored t \/ exists m, magnet_from_str parse_url t = Ok m)) pre /\
     exists t, trimmed l t /\ ~ ignored t /\ magnet_refused parse_url t e).
Proof.
  intros L. rewrite (file_iff parse_url content ls _ L). cbn [file_result]. split.
  - intros (pre & l & post & os & -> & -> & F & t & T & NI & E). exists pre, l, post. split; [reflexivity|]. split; [lia|]. split.
    + clear -F. induction F as [|x o xs os (t & T & H) F IH]; constructor; [|exact IH]. exists t. split; [exact T|]. destruct H as [(I & _)|(_ & m & E & _)]; eauto.
    + exists t. split; [exact T|]. split; [exact NI|]. apply magnet_reason. exact E.
  - intros (pre & l & post & -> & -> & F & t & T & NI & E).
    assert (OS : exists os, Forall2 (line_ok parse_url) pre os).
    { clear -F. induction F as [|x xs (t & T & H) F (os & IH)]; [exists []; constructor|]. destruct t as [|c t'].
      - exists ([] :: os). constructor; [|exact IH]. exists []. split; [exact T|]. left. split; [left; reflexivity|reflexivity].
      - destruct (Byte.byte_eq_dec c "#"%byte) as [->|NC].
        + exists ([] :: os). constructor; [|exact IH]. exists ("#"%byte :: t'). split; [exact T|]. left. split; [right; eauto|reflexivity].
        + assert (NI : ~ ignored (c :: t')) by (intros [X|(r & X)]; congruence). destruct H as [I|(m & E)]; [destruct (NI I)|]. exists ([m] :: os). constructor; [|exact IH]. exists (c :: t'). split; [exact T|]. right. split; [exact NI|]. eauto. }
    destruct OS as (os & OS). exists pre, l, post, os. split; [reflexivity|]. split; [lia|]. split; [exact OS|]. exists t. split; [exact T|]. split; [exact NI|]. apply magnet_reason. exact E.
Qed.
End Files.
