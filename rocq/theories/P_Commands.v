From Verif Require Import Base BaseFacts M_Net M_Sha1 M_Types M_Utf8 M_Torrent M_Template S_Template M_Save M_Tracker M_Json M_SockText M_Peer M_Session M_Mse M_Connect M_GetInfo M_Write M_Config M_Nursery M_Resolve M_Magnet M_Http M_Get S_Get
  M_Commands S_Commands S_IpText P_IpText P_IpGrammar S_Json P_Json S_Utf8 S_Lossy P_Lossy S_SockText P_SockText S_Bencode S_Download S_TorrentFile S_GetInfo P_GetInfo3 P_Session P_Get P_GetInfo P_Write2 P_Write3 P_Write4 C_Session C_Text C_Json C_Udp.

Lemma lines_inj a : forall b, concat (map (fun l => l ++ [x0a]) a) = concat (map (fun l => l ++ [x0a]) b) ->
  Forall (fun l => ~ In x0a l) a -> Forall (fun l => ~ In x0a l) b -> a = b.
Proof.
  assert (S : forall x y r t : bytes, ~ In x0a x -> ~ In x0a y -> (x ++ [x0a]) ++ r = (y ++ [x0a]) ++ t -> x = y /\ r = t).
  { induction x as [|c x IH]; intros [|d y] r t N1 N2 E; cbn in *.
    - injection E as ->. auto.
    - injection E as <- _. tauto.
    - injection E as -> _. tauto.
    - injection E as -> E. destruct (IH y r t) as (-> & ->); [tauto|tauto|exact E|auto]. }
  induction a as [|x a IH]; intros [|y b] E FA FB; [reflexivity| | |].
  - cbn in E. destruct y; discriminate E.
  - cbn in E. destruct x; discriminate E.
  - cbn [map concat] in E. inversion FA; inversion FB; subst. apply S in E; auto. destruct E as (-> & E). f_equal. apply IH; auto.
Qed.
Lemma plain_line_ok p : wf_sa (pr_addr p) -> plain_line (show_sockaddr (pr_addr p)) p.
Proof. intros W. apply show_sockaddr_text. exact W. Qed.
Lemma printable_no_lf s : printable s -> ~ In x0a s.
Proof. intros F H. unfold printable in F. rewrite Forall_forall in F. specialize (F _ H). vm_compute in F. destruct F as (F & _). apply F. reflexivity. Qed.
Lemma json_line_ok p : wf_sa (pr_addr p) -> json_line (display_json p) p.
Proof.
  intros W. split; [apply display_printable|]. destruct (C39_parses p W) as (host & E & A). exists host. eexists. split; [exact A|]. split; [|exact E].
  destruct (pr_id p) as [i|]; [|reflexivity]. exists (lossy_chars i). split; [|reflexivity]. apply C90_characters. reflexivity.
Qed.
Lemma sock_no_lf a : ~ In x0a (show_sockaddr a).
Proof.
  assert (D : forall n, printable (dec n)) by (intros n; apply plain_printable, dec_plain).
  apply printable_no_lf. destruct a as [[n|n] q]; unfold show_sockaddr; cbn [sa_ip sa_port].
  - apply printable_app; [exact (plain_printable _ (show_ip_plain (V4 n)))|]. constructor; [vm_compute; split; discriminate|apply D].
  - constructor; [vm_compute; split; discriminate|]. apply printable_app; [exact (plain_printable _ (show_ip_plain (V6 n)))|].
    constructor; [vm_compute; split; discriminate|]. constructor; [vm_compute; split; discriminate|apply D].
Qed.
Lemma listing_lists json ps : Forall (fun p => wf_sa (pr_addr p)) ps -> lists json (listing json ps) ps.
Proof.
  intros F. exists (map (fun p => if json then display_json p else show_sockaddr (pr_addr p)) ps). split; [split|].
  - unfold listing. now rewrite map_map.
  - apply Forall_map. apply Forall_forall. intros p _. destruct json; [apply printable_no_lf, display_printable|apply sock_no_lf].
  - induction F as [|p ps W F IH]; [constructor|]. cbn [map]. constructor; [|exact IH]. destruct json; [apply json_line_ok|apply plain_line_ok]; exact W.
Qed.

Lemma get_info_connects ih pid i override p requires limit secs now enc plain l s :
  get_info ih pid i override p requires limit secs now enc plain = Ret (l, s) ->
  exists (e f : timed (res peer_error link)) t r, run_connect override p requires limit e f = (l, t, r).
Proof.
  unfold get_info. intros H. destruct (get_crypto_mode override p requires) as [[| |]|e] eqn:E.
  - destruct (connect_crypto _ _ _ _ _ _) as [r|]; [|discriminate]. destruct (run_connect override p requires limit r None) as [[l' t] r'] eqn:R.
    exists r, None, t, r'. rewrite R. destruct r' as [[c later]|]; [destruct (pieces later) in H|]; injection H as -> _; reflexivity.
  - destruct (connect_crypto _ _ _ _ _ _) as [r|]; [|discriminate].
    assert (Z : forall f, (match run_connect override p requires limit r f with
      | (l0, _, Ok (c, later)) => let (bs, e) := pieces later in Ret (l0, snd (fetch_from ih (mkConn (cn_local c) (cn_remote c) (cn_ext c) (cn_size c) (cn_st c) (cn_buf c) (cn_reads c ++ bs)) e))
      | (l0, _, Err e) => Ret (l0, SDone (Err e)) end = Ret (l, s)) -> exists t r', run_connect override p requires limit r f = (l, t, r')).
    { intros f X. destruct (run_connect override p requires limit r f) as [[l' t] [[c later]|e]]; [destruct (pieces later)|]; injection X as -> _; eauto. }
    destruct (timeout limit r) as [t [[c|[]]|]]; try (exists r, None; apply Z; exact H).
    destruct (connect_plain _ _ _ _ _) as [r2|]; [|discriminate]. exists r, r2. apply Z. exact H.
  - destruct (connect_plain _ _ _ _ _) as [r|]; [|discriminate]. destruct (run_connect override p requires limit None r) as [[l' t] r'] eqn:R.
    exists None, r, t, r'. rewrite R. destruct r' as [[c later]|]; [destruct (pieces later) in H|]; injection H as -> _; reflexivity.
  - exists None, None. unfold run_connect. rewrite E. injection H as <- _. eauto.
Qed.
Lemma get_info_kinds ih pid i override p requires limit secs now enc plain l s :
  get_info ih pid i override p requires limit secs now enc plain = Ret (l, s) ->
  (requires = true -> ~ In false l) /\
  (override = Some Encrypt \/ (override = None /\ p = CPAlways) -> l = [true]) /\
  (override = Some Plain \/ (override = None /\ p = CPNever) -> l = if requires then [] else [false]) /\
  (override = None /\ p = CPIfRequired -> l = if requires then [true] else [false]) /\
  (override = Some Prefer \/ (override = None /\ p = CPPrefer) -> l = [true] \/ (l = [true; false] /\ requires = false)).
Proof.
  intros H. apply get_info_connects in H. destruct H as (e & f & t & r & R). pose proof (C41_preference_honoured _ _ _ _ _ _ _ _ _ _ R) as C. cbv zeta in C. destruct C as (A & B & C & D & _).
  split. { intros ->. eapply C40_required_never_plain. exact R. }
  split; [exact A|]. split; [exact B|]. split; [exact C|]. intros P. destruct (D P) as [X|(X & Y & _)]; auto.
Qed.

Lemma get_info_w_kinds ih pid i override p requires limit secs now enc plain l s :
  get_info_w ih pid i override p requires limit secs now enc plain = Ret (l, s) ->
  (requires = true -> ~ In false l) /\
  (override = Some Encrypt \/ (override = None /\ p = CPAlways) -> l = [true]) /\
  (override = Some Plain \/ (override = None /\ p = CPNever) -> l = if requires then [] else [false]) /\
  (override = None /\ p = CPIfRequired -> l = if requires then [true] else [false]) /\
  (override = Some Prefer \/ (override = None /\ p = CPPrefer) -> l = [true] \/ (l = [true; false] /\ requires = false)).
Proof.
  intros H. assert (R : exists (e f : timed (res peer_error link_w)) t r, run_connect override p requires limit e f = (l, t, r)).
  { assert (Z : forall rc : list bool * N * res peer_error link_w, finish_w ih rc = Ret (l, s) -> exists t r, rc = (l, t, r)).
    { intros [[l' t] r] X. destruct (finish_w_list ih l' t r) as (s' & F). rewrite F in X. injection X as -> _. eauto. }
    unfold get_info_w in H. destruct (get_crypto_mode override p requires) as [[| |]|e] eqn:E.
    - destruct (connect_crypto_w _ _ _ _ _ _) as [r|]; [|discriminate]. exists r, None. apply Z. exact H.
    - destruct (connect_crypto_w _ _ _ _ _ _) as [r|]; [|discriminate].
      destruct (timeout limit r) as [t [[c|[]]|]]; try (exists r, None; apply Z; exact H).
      destruct (connect_plain_w _ _ _ _ _) as [r2|]; [|discriminate]. exists r, r2. apply Z. exact H.
    - destruct (connect_plain_w _ _ _ _ _) as [r|]; [|discriminate]. exists None, r. apply Z. exact H.
    - exists None, None. unfold run_connect. rewrite E. injection H as <- _. eauto. }
  destruct R as (e & f & t & r & R). pose proof (C41_preference_honoured _ _ _ _ _ _ _ _ _ _ R) as C. cbv zeta in C. destruct C as (A & B & C & D & _).
  split. { intros ->. eapply C40_required_never_plain. exact R. }
  split; [exact A|]. split; [exact B|]. split; [exact C|]. intros P. destruct (D P) as [X|(X & Y & _)]; auto.
Qed.

Section QP.
Context (cfg : config) (pid ih : bytes) (p : peer) (src : bytes) (ts : list tok) (template : list elem) (cut : bytes -> list bytes) (clock : Z).
Context (encrypt prefer no : bool) (now : N) (enc plain : dial_w).
Hypothesis LH : length ih = 20%nat.
Hypothesis LP : length pid = 20%nat.
Hypothesis W : wf_ip (sa_ip (pr_addr p)).
Hypothesis READS : reads src ts.
Hypothesis PARSE : parse_template src = Ret (Ok template).
Hypothesis CUT : forall b, concat (cut b) = b.
Notation fetched := (get_info_w ih pid (sa_ip (pr_addr p)) (peer_flags encrypt prefer no) (c_encrypt cfg) (pr_crypto p) (ns (c_handshake_timeout cfg)) (c_dh_timeout cfg) now enc plain).
Notation cmd fail := (query_peer cfg pid encrypt prefer no template p ih now enc plain clock cut fail).
Let m := mkMagnet ih None [].

Lemma qp_saved info : ti_hash info = ih -> bencoded_dict (ti_data info) ->
  exists doc d ops, ti_data info = encode (VDict d) /\ canonical (VDict d) /\ canonical (VDict doc) /\
    says doc [] [] (bs "demagnetize 0.7.0") (unix_now clock) (VDict d) /\
    save cut None (tf_new info [] [] (unix_now clock)) template = Ret (ops, true) /\ (forall k, save cut (Some k) (tf_new info [] [] (unix_now clock)) template = Ret (firstn k ops, false)) /\
    ((text_of m ts d = bs "-" /\ printed ops = encode (VDict doc) /\ forall f, fs_run f ops = f) \/
     (text_of m ts d <> bs "-" /\ printed ops = [] /\ forall f, fs_run f ops (text_of m ts d) = Some (encode (VDict doc)) /\ forall q, q <> text_of m ts d -> fs_run f ops q = f q)).
Proof. intros A B. exact (save_none pid m LH LP src ts template cut READS PARSE CUT info [] [] (unix_now clock) A B (Forall_nil _)). Qed.
Lemma qp_success l ops : cmd None = Ret (l, Some (ops, true)) ->
  exists doc d, canonical (VDict d) /\ sha1 (encode (VDict d)) = ih /\ canonical (VDict doc) /\
    says doc [] [] (bs "demagnetize 0.7.0") (unix_now clock) (VDict d) /\
    ((text_of m ts d = bs "-" /\ printed ops = encode (VDict doc) /\ forall f, fs_run f ops = f) \/
     (text_of m ts d <> bs "-" /\ printed ops = [] /\ forall f, fs_run f ops (text_of m ts d) = Some (encode (VDict doc)) /\ forall q, q <> text_of m ts d -> fs_run f ops q = f q)).
Proof.
  unfold query_peer. intros H. destruct fetched as [[l' [[info|e]| |]]|] eqn:E; try discriminate.
  destruct (obtained_w _ _ _ _ _ _ _ _ _ _ _ _ _ LH LP W E) as (_ & A1 & A2 & A3).
  destruct (qp_saved info A1 A3) as (doc & d & ops' & D1 & D2 & D3 & D4 & SV & _ & DST). rewrite SV in H. injection H as <- <-. exists doc, d. rewrite <- D1. auto.
Qed.
Lemma qp_failure l ops : cmd None = Ret (l, Some (ops, false)) -> ops = [] /\ exists e, fetched = Ret (l, SDone (Err e)).
Proof.
  unfold query_peer. intros H. destruct fetched as [[l' [[info|e]| |]]|] eqn:E; try discriminate.
  - destruct (obtained_w _ _ _ _ _ _ _ _ _ _ _ _ _ LH LP W E) as (_ & A1 & A2 & A3).
    destruct (qp_saved info A1 A3) as (doc & d & ops' & D1 & D2 & D3 & D4 & SV & _ & DST). rewrite SV in H. discriminate.
  - injection H as <- <-. eauto.
Qed.
Lemma qp_save_failure k l ops b : cmd (Some k) = Ret (l, Some (ops, b)) ->
  b = false /\ ((cmd None = Ret (l, Some ([], false)) /\ ops = []) \/ exists all, cmd None = Ret (l, Some (all, true)) /\ ops = firstn k all).
Proof.
  unfold query_peer. intros H. destruct fetched as [[l' [[info|e]| |]]|] eqn:E; try discriminate.
  - destruct (obtained_w _ _ _ _ _ _ _ _ _ _ _ _ _ LH LP W E) as (_ & A1 & A2 & A3).
    destruct (qp_saved info A1 A3) as (doc & d & ops' & D1 & D2 & D3 & D4 & SV & SK & DST). rewrite SK in H. injection H as <- <- <-. split; [reflexivity|]. right. exists ops'. rewrite SV. auto.
  - injection H as <- <- <-. auto.
Qed.
Lemma qp_no_panic fail : (forall t0, d_tcp (fst enc) = Some (t0, Ok tt) -> (now + t0) / 1000000000 + c_dh_timeout cfg < 2 ^ 63) -> cmd fail <> Panic.
Proof.
  intros CF. unfold query_peer. pose proof (get_info_w_panic ih pid (sa_ip (pr_addr p)) LH LP W (peer_flags encrypt prefer no) (c_encrypt cfg) (pr_crypto p) (ns (c_handshake_timeout cfg)) (c_dh_timeout cfg) now enc plain) as (G1 & G2).
  destruct fetched as [[l' [[info|e]| |]]|] eqn:E; try discriminate.
  - destruct (obtained_w _ _ _ _ _ _ _ _ _ _ _ _ _ LH LP W E) as (_ & A1 & A2 & A3).
    destruct (qp_saved info A1 A3) as (doc & d & ops' & D1 & D2 & D3 & D4 & SV & SK & DST). destruct fail as [k|]; [rewrite SK|rewrite SV]; discriminate.
  - exfalso. eapply G2. reflexivity.
  - exfalso. destruct (G1 eq_refl) as (_ & t0 & T & _ & X). specialize (CF t0 T). lia.
Qed.
Lemma qp_kinds fail l r : cmd fail = Ret (l, r) ->
  (encrypt = true -> l = [true]) /\
  (encrypt = false -> prefer = true -> l = [true] \/ l = [true; false]) /\
  (encrypt = false -> prefer = false -> no = true -> ~ In true l) /\
  (pr_crypto p = true -> ~ In false l).
Proof.
  unfold query_peer. intros H. destruct fetched as [[l' s]|] eqn:E; [|discriminate].
  assert (l' = l) as ->. { destruct s as [[info|e]| |]; try discriminate; try (injection H as -> _; reflexivity). destruct (save _ _ _ _); [injection H as -> _; reflexivity|discriminate]. }
  apply get_info_w_kinds in E. destruct E as (K1 & K2 & K3 & _ & K5).
  split; [intros ->; apply K2; left; reflexivity|]. split; [intros -> ->; destruct K5 as [X|(X & _)]; auto|]. split; [|exact K1].
  intros -> -> ->. rewrite (K3 (or_introl eq_refl)). destruct (pr_crypto p); intros X; [destruct X|]. destruct X as [X|[]]. discriminate X.
Qed.
End QP.

Lemma qt_spec E cfg pid key port json rq sp no ih (conn : timed (res E unit)) ann l stop out ok :
  query_tracker cfg pid key port json rq sp no ih conn ann = (l, stop, out, ok) ->
  (forall a, In a l \/ stop = Some a -> an_hash a = ih /\ an_pid a = pid /\
     an_crypto a = if rq then TCRequired else if sp then TCSupported else if no then TCPlain
                   else match c_encrypt cfg with CPAlways => TCRequired | CPNever => TCPlain | _ => TCSupported end) /\
  (ok = false -> out = [] /\ stop = None) /\
  (ok = true -> exists a t1 t2 r, l = [a] /\ an_event a = EvStarted /\ conn = Some (t1, Ok tt) /\ ann a = Some (t2, Ok r) /\ t1 + t2 <= ns (c_announce_timeout cfg) /\
     (exists z, stop = Some z /\ an_event z = EvStopped) /\
     (Forall (fun p => wf_sa (pr_addr p)) (ar_peers r) -> lists json out (ar_peers r))).
Proof.
  unfold query_tracker. set (s := mkTS _ _ _ _ _ _ _). set (limit := ns _). intros H.
  assert (SC : an_crypto (start_announcement s) = if rq then TCRequired else if sp then TCSupported else if no then TCPlain
                   else match c_encrypt cfg with CPAlways => TCRequired | CPNever => TCPlain | _ => TCSupported end)
    by (unfold s; destruct rq, sp, no; try reflexivity; cbn; destruct (c_encrypt cfg); reflexivity).
  assert (ST : an_crypto (stop_announcement s) = an_crypto (start_announcement s)) by reflexivity.
  unfold getter_run in H. destruct (timeout limit conn) as [t1 [[u|e]|]] eqn:T1.
  - destruct (timeout (limit - t1) (ann (start_announcement s))) as [t2 [[r|e]|]] eqn:T2; injection H as <- <- <- <-.
    + split; [intros a [[<-|[]]|X]; [auto|injection X as <-; rewrite ST; auto]|]. split; [discriminate|]. intros _.
      unfold timeout in T1, T2. destruct conn as [[t1' c]|]; [|discriminate]. destruct (N.leb_spec t1' limit); [|discriminate]. injection T1 as -> ->. destruct u.
      destruct (ann (start_announcement s)) as [[t2' c]|] eqn:A; [|discriminate]. destruct (N.leb_spec t2' (limit - t1)); [|discriminate]. injection T2 as -> ->.
      exists (start_announcement s), t1, t2, r. split; [reflexivity|]. split; [reflexivity|]. split; [reflexivity|]. split; [exact A|]. split; [lia|]. split; [eexists; split; reflexivity|].
      apply listing_lists.
    + split; [intros a [[<-|[]]|X]; [auto|discriminate X]|]. split; [auto|discriminate].
    + split; [intros a [[<-|[]]|X]; [auto|discriminate X]|]. split; [auto|discriminate].
  - injection H as <- <- <- <-. split; [intros a [[]|X]; discriminate X|]. split; [auto|discriminate].
  - injection H as <- <- <- <-. split; [intros a [[]|X]; discriminate X|]. split; [auto|discriminate].
Qed.
(** Conversely a tracker that replies in time *)
Lemma qt_success E cfg pid key port json rq sp no ih (conn : timed (res E unit)) ann t1 :
  conn = Some (t1, Ok tt) -> (forall a, an_event a = EvStarted -> an_hash a = ih -> exists t2 r, ann a = Some (t2, Ok r) /\ t1 + t2 <= ns (c_announce_timeout cfg)) ->
  exists l stop out, query_tracker cfg pid key port json rq sp no ih conn ann = (l, stop, out, true).
Proof.
  intros -> H. unfold query_tracker, getter_run. set (s := mkTS _ _ _ _ _ _ _). destruct (H (start_announcement s) eq_refl eq_refl) as (t2 & r & A & T).
  unfold timeout. destruct (N.leb_spec t1 (ns (c_announce_timeout cfg))); [|lia]. rewrite A. destruct (N.leb_spec t2 (ns (c_announce_timeout cfg) - t1)); [|lia]. eauto.
Qed.
Lemma qd_spec E json (r : res E (list peer * list sockaddr)) out ok : query_dht json r = (out, ok) ->
  (ok = true <-> exists peers nodes, r = Ok (peers, nodes) /\ peers <> []) /\
  (ok = false -> out = []) /\
  (forall peers nodes, r = Ok (peers, nodes) -> Forall (fun p => wf_sa (pr_addr p)) peers -> lists json out peers).
Proof.
  unfold query_dht. destruct r as [[[|p ps] nodes]|e]; intros X; injection X as <- <-.
  - split; [split; [discriminate|]; intros (? & ? & X & Y); injection X as <- _; tauto|]. split; [auto|]. intros ? ? X _. injection X as <- _. exists []. split; [split; [reflexivity|constructor]|]. constructor.
  - split; [split; [|auto]; intros _; exists (p :: ps), nodes; split; [reflexivity|discriminate]|]. split; [discriminate|]. intros ? ? X F. injection X as <- _. apply listing_lists. exact F.
  - split; [split; [discriminate|]; intros (? & ? & X & _); discriminate|]. split; [auto|]. discriminate.
Qed.
