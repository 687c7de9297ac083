(** Lemmas for the log (C110). *)
From Verif Require Import Base BaseFacts S_Utf8 M_Utf8 P_Utf8 S_Magnet M_Net M_IpText P_IpText M_Util M_Types M_Bencode M_Torrent M_Extensions M_Messages M_Peer M_Session M_Tracker M_SockText M_Udp M_Http M_Announce M_Mse M_DhtMsg M_Template M_Save M_Log S_Log.
From Verif Require S_Json P_Json.

Lemma clean_nil : clean [].
Proof. exists []. split; [constructor|]. split; [reflexivity|]. intros c []. Qed.
Lemma utf8_app a b : utf8 (a ++ b) = utf8 a ++ utf8 b.
Proof. unfold utf8. now rewrite map_app, concat_app. Qed.
Lemma clean_app a b : clean a -> clean b -> clean (a ++ b).
Proof.
  intros (x & X1 & -> & X2) (y & Y1 & -> & Y2). exists (x ++ y). rewrite utf8_app. split; [apply Forall_app; auto|]. split; [reflexivity|].
  intros c I. apply in_app_or in I as [I|I]; auto.
Qed.
Lemma clean_char c : scalar c -> ~ control c -> clean (utf8_char c).
Proof. intros S C. exists [c]. split; [auto|]. split; [unfold utf8; cbn [map concat]; now rewrite app_nil_r|]. intros d [<-|[]]. exact C. Qed.
Lemma printable_clean t : S_Json.printable t -> clean t.
Proof.
  induction 1 as [|b t B F IH]; [apply clean_nil|]. change (b :: t) with ([b] ++ t). apply clean_app; auto.
  replace [b] with (utf8_char (b2n b)).
  - apply clean_char; [left; lia|]. unfold control. lia.
  - unfold utf8_char. destruct (N.ltb_spec (b2n b) 128); [|lia]. now rewrite n2b_b2n.
Qed.
Lemma lit_clean t : forallb (fun b => (32 <=? b2n b) && (b2n b <=? 126)) t = true -> clean t.
Proof. intros H. apply printable_clean, P_Json.lit_printable, H. Qed.
Lemma dec_clean n : clean (dec n).
Proof. apply printable_clean, P_Json.plain_printable, P_Json.dec_plain. Qed.
Lemma show_ip_clean i : clean (show_ip i).
Proof. apply printable_clean, P_Json.plain_printable, P_Json.show_ip_plain. Qed.
Lemma hex_digit_printable n : n < 16 -> 32 <= b2n (hex_digit n) <= 126.
Proof. intros H. unfold hex_digit. destruct (N.ltb_spec n 10); rewrite b2n_n2b_small by lia; lia. Qed.
Lemma hex_go_printable fuel : forall n acc, S_Json.printable acc -> S_Json.printable (hex_go fuel n acc).
Proof.
  induction fuel as [|f IH]; intros n acc A; [exact A|]. cbn [hex_go].
  assert (S_Json.printable (hex_digit (n mod 16) :: acc)). { constructor; auto. apply hex_digit_printable, N.mod_lt. lia. }
  destruct (n <? 16); auto.
Qed.
Lemma hex_clean n : clean (hex n).
Proof. apply printable_clean, hex_go_printable. constructor. Qed.
Lemma hexw_clean w n : clean (hexw w n).
Proof. apply clean_app; [|apply hex_clean]. apply printable_clean. apply Forall_forall. intros b B. apply repeat_spec in B as ->. split; reflexivity || discriminate. Qed.
Lemma flat_map_clean {A} (f : A -> bytes) l : (forall x, In x l -> clean (f x)) -> clean (flat_map f l).
Proof.
  induction l as [|x l IH]; intros H; [apply clean_nil|]. cbn [flat_map]. apply clean_app; [apply H; now left|]. apply IH. intros y Y. apply H. now right.
Qed.
Lemma lower_hex_clean s : clean (lower_hex s).
Proof. apply flat_map_clean. intros. apply hexw_clean. Qed.
Lemma info_hash_clean h : clean (show_info_hash h).
Proof.
  apply flat_map_clean. intros b _. apply printable_clean. pose proof (b2n_bound b).
  apply Forall_cons; [|apply Forall_cons; [|apply Forall_nil]]; apply hex_digit_printable; [apply N.div_lt_upper_bound; lia|apply N.mod_lt; lia].
Qed.
Lemma dq_clean : clean dq. Proof. apply lit_clean. reflexivity. Qed.
Lemma sockaddr_clean a : clean (show_sockaddr a).
Proof.
  pose proof (show_ip_clean (sa_ip a)) as I. unfold show_sockaddr. destruct (sa_ip a); cbn [show_ip] in I.
  - apply clean_app; auto. change (?x :: ?t) with ([x] ++ t). apply clean_app; [apply lit_clean; reflexivity|apply dec_clean].
  - change ("["%byte :: ?t) with (bs "[" ++ t). apply clean_app; [apply lit_clean; reflexivity|]. apply clean_app; auto.
    change ("]"%byte :: ":"%byte :: ?t) with (bs "]:" ++ t). apply clean_app; [apply lit_clean; reflexivity|apply dec_clean].
Qed.

Section Clean.
Variable plain : N -> bool.
Hypothesis plain_ok : forall c, control c -> plain c = false.
Lemma esc_clean c : scalar c -> clean (esc_char plain c).
Proof.
  intros S. unfold esc_char.
  repeat (match goal with |- clean (if ?x =? ?y then _ else _) => destruct (N.eqb_spec x y); [apply lit_clean; reflexivity|] end).
  assert (clean (bs "\u{" ++ hex c ++ bs "}")). { apply clean_app; [apply lit_clean; reflexivity|]. apply clean_app; [apply hex_clean|apply lit_clean; reflexivity]. }
  destruct (N.ltb_spec c 128).
  - destruct (N.leb_spec 32 c); [|assumption]. destruct (N.leb_spec c 126); [|assumption]. cbn [andb]. apply printable_clean.
    apply Forall_cons; [|apply Forall_nil]. rewrite b2n_n2b_small by lia. lia.
  - destruct (plain c) eqn:P; [|assumption]. apply clean_char; auto. intros C. apply plain_ok in C. congruence.
Qed.
Lemma debug_str_clean s : clean (debug_str plain s).
Proof.
  apply clean_app; [apply dq_clean|]. apply clean_app; [|apply dq_clean]. apply flat_map_clean. intros c I. apply esc_clean.
  pose proof (lossy_chars_scalar s) as F. rewrite Forall_forall in F. auto.
Qed.
Lemma esc_byte_clean b : clean (esc_byte b).
Proof.
  unfold esc_byte.
  repeat (match goal with |- clean (if ?x =? ?y then _ else _) => destruct (N.eqb_spec x y); [apply lit_clean; reflexivity|] end).
  destruct (N.eqb_spec (b2n b) 92); [|destruct (N.eqb_spec (b2n b) 34)]; cbn [orb].
  1,2: apply clean_app; [apply lit_clean; reflexivity|]; apply printable_clean; apply Forall_cons; [lia|apply Forall_nil].
  destruct (N.eqb_spec (b2n b) 0); [apply lit_clean; reflexivity|].
  destruct (N.leb_spec 32 (b2n b)), (N.ltb_spec (b2n b) 127); cbn [andb].
  2-4: apply clean_app; [apply lit_clean; reflexivity|apply hexw_clean].
  apply printable_clean. apply Forall_cons; [lia|apply Forall_nil].
Qed.
Lemma debug_bytes_clean s : clean (debug_bytes s).
Proof.
  repeat (apply clean_app; [apply lit_clean; reflexivity|]). apply clean_app; [|apply dq_clean]. apply flat_map_clean. intros b _. apply esc_byte_clean.
Qed.
Lemma commas_clean l : Forall clean l -> clean (commas l).
Proof.
  induction 1 as [|x l X F IH]; [apply clean_nil|]. cbn [commas]. destruct l; auto. apply clean_app; auto. apply clean_app; auto. apply lit_clean. reflexivity.
Qed.
Lemma comma_list_clean l : Forall clean l -> clean (comma_list l).
Proof. intros F. unfold comma_list. destruct l; [apply lit_clean; reflexivity|apply commas_clean, F]. Qed.
Lemma chain_clean l : Forall clean l -> clean (chain l).
Proof.
  induction 1 as [|x l X F IH]; [apply clean_nil|]. cbn [chain]. destruct l; auto. apply clean_app; auto. apply clean_app; auto. apply lit_clean. reflexivity.
Qed.
Lemma method_clean m : clean (method_text m). Proof. destruct m; apply lit_clean; reflexivity. Qed.
Lemma packet_clean e : clean (packet_text e). Proof. destruct e; apply lit_clean; reflexivity. Qed.
Hint Resolve clean_nil dec_clean show_ip_clean hex_clean hexw_clean lower_hex_clean info_hash_clean dq_clean sockaddr_clean debug_str_clean debug_bytes_clean
  comma_list_clean chain_clean method_clean packet_clean : clean.
Ltac cl := repeat (match goal with |- clean (_ ++ _) => apply clean_app end); auto with clean; try (apply lit_clean; reflexivity).
Lemma show_peer_clean a : clean (show_peer a). Proof. unfold show_peer. cl. Qed.
Lemma subj_clean s : clean (subj plain s). Proof. unfold subj, show_subject. destruct (s_name s); cl. Qed.
Lemma show_node_clean i a : clean (show_node i a). Proof. unfold show_node. destruct i; cl. Qed.
Lemma show_tracker_clean u : clean u -> clean (show_tracker u). Proof. intros H. unfold show_tracker. cl. Qed.
Lemma show_exts_clean s : clean (show_exts s).
Proof.
  unfold show_exts. apply comma_list_clean. apply Forall_app. split.
  - apply Forall_map, Forall_forall. intros e _. destruct e; apply lit_clean; reflexivity.
  - destruct (unknown_bits s =? 0); repeat constructor. cl.
Qed.
Lemma show_shake_clean h : clean (show_shake h). Proof. unfold show_shake. pose proof (show_exts_clean (hs_ext h)). cl. Qed.
Lemma show_core_clean m : clean (show_core m). Proof. destruct m; cbn [show_core]; cbv zeta; cl. Qed.
Lemma show_eh_clean h : clean (show_eh plain h).
Proof.
  unfold show_eh. cl.
  - destruct (eh_m h); cl. apply comma_list_clean, Forall_map, Forall_forall. auto with clean.
  - destruct (eh_e h) as [[|]|]; cl.
  - destruct (eh_v h); cl.
  - destruct (eh_size h); cl.
  - destruct (eh_yourip h); cl.
Qed.
Lemma show_msg_clean m : clean (show_msg plain m).
Proof. destruct m as [m|h|m]; [apply show_core_clean|apply show_eh_clean|]. destruct m; cbn [show_msg show_meta]; cl. Qed.
Ltac cf := repeat (apply Forall_cons || apply Forall_nil); cl; auto.
Lemma hs_chain_clean src e : Forall clean src -> Forall clean (hs_chain src e).
Proof. intros F. destruct e; cbn [hs_chain]; unfold hex0x; cf. Qed.
Lemma message_chain_clean src e : Forall clean src -> Forall clean (message_chain src e).
Proof. intros F. destruct e; cbn [message_chain]; unfold hex0x; cf. destruct (_ <? _); cl. Qed.
Lemma peer_chain_clean d e : Forall clean (d_src d) -> Forall clean (peer_chain plain d e).
Proof.
  intros F. destruct e; cbn [peer_chain]; cf.
  - destruct e; cbn [shake_chain]; cf.
  - apply hs_chain_clean, F.
  - apply message_chain_clean, F.
  - destruct e; cbn [registry_text]; cl. destruct e; apply lit_clean; reflexivity.
  - destruct e; cbn [construct_text]; cl.
  - destruct e; cbn [push_text]; cl.
  - destruct e as [e| |]; cbn [build_text]; cl. destruct e; apply lit_clean; reflexivity.
  - apply show_msg_clean.
Qed.
Lemma tracker_chain_clean src e : Forall clean src -> Forall clean (tracker_chain plain src e).
Proof.
  intros F. destruct e as [[m|e|e|]|]; cbn [tracker_chain]; cf.
  - destruct e; cbn [http_chain]; cf.
  - destruct e; cbn [udp_chain]; unfold hex0x; cf.
Qed.
Lemma rpc_clean e : clean (show_rpc_error plain e).
Proof. unfold show_rpc_error. cl. destruct (er_code e); cbn [show_code]; cl. Qed.
Lemma response_chain_clean src e : Forall clean src -> Forall clean (response_chain plain src e).
Proof. intros F. destruct e; cbn [response_chain]; cf. apply rpc_clean. Qed.
Hint Resolve show_peer_clean subj_clean show_node_clean show_shake_clean show_msg_clean rpc_clean : clean.
Lemma record_clean r : Forall clean (local_parts r) -> clean (record_text plain r).
Proof.
  destruct r; cbn [local_parts record_text]; intros F; cl;
    try (apply show_tracker_clean; inversion F; assumption);
    try (apply chain_clean; first [apply peer_chain_clean | apply tracker_chain_clean | apply response_chain_clean]; first [assumption | inversion F; assumption]);
    try (apply chain_clean, hs_chain_clean, F).
  - apply comma_list_clean, Forall_map, Forall_forall. auto with clean.
  - inversion F; assumption.
Qed.
End Clean.

(** ** The file name *)
From Verif Require Import S_Bencode S_Template S_Path S_Download P_Save P_Dest.
Lemma clean_one_line t : clean t -> one_line t.
Proof.
  intros (cs & S & -> & C). apply Forall_forall. intros b B. unfold utf8 in B. apply in_concat in B as (l & L & B). apply in_map_iff in L as (c & <- & I).
  rewrite Forall_forall in S. apply utf8_char_bytes in B; [|apply scalar_bound; auto]. specialize (C c I). unfold control in C. destruct B; lia.
Qed.
Lemma sanitize_one_line s : one_line (sanitize s).
Proof.
  pose proof (sanitize_clean s) as F. apply Forall_forall. intros b B. rewrite Forall_forall in F. specialize (F b B). unfold forbidden in F.
  destruct (N.ltb_spec (b2n b) 32); [|assumption]. exfalso. apply F. now left.
Qed.
Lemma one_line_app a b : one_line a -> one_line b -> one_line (a ++ b).
Proof. intros. apply Forall_app. auto. Qed.
Lemma reads_in s ts c : reads s ts -> In (Ch c) ts -> In c s.
Proof.
  induction 1 as [|r ts R IH|r ts R IH|r ts R IH|r ts R IH|d r ts D1 D2 R IH]; intros I; [destruct I|..].
  1,2: destruct I as [[= <-]|I]; [now left|right; right; auto].
  1,2: destruct I as [[=]|I]; apply in_or_app; right; auto.
  destruct I as [[= <-]|I]; [now left|right; auto].
Qed.
Lemma saving_one_line plain s ts t name h data r :
  (forall c, control c -> plain c = false) -> reads s ts -> parse_template s = Ret (Ok t) -> bencoded_dict data -> one_line s ->
  saving_record name (mkTI h data) t = Ret (Some r) -> one_line (record_text plain r).
Proof.
  intros PO R P B O E. destruct (destination _ _ _ h _ R P B) as (d & _ & _ & D). cbv zeta in D. unfold saving_record in E.
  destruct D as [[_ D]|[_ D]]; rewrite D in E; [discriminate|]. injection E as <-. cbn [record_text].
  apply one_line_app; [apply clean_one_line, lit_clean; reflexivity|]. apply one_line_app; [apply clean_one_line, subj_clean, PO|].
  apply one_line_app; [apply clean_one_line, lit_clean; reflexivity|].
  apply Forall_forall. intros b I. unfold expand in I. apply in_flat_map in I as (k & K & I). destruct k.
  - destruct I as [<-|[]]. apply (reads_in _ _ _ R) in K. unfold one_line in O. rewrite Forall_forall in O. auto.
  - pose proof (sanitize_one_line (match lookup (bs "name") d with Some (VBytes n) => from_utf8_lossy n | _ => bs "NONAME" end)) as F.
    unfold one_line in F. rewrite Forall_forall in F. apply F, I.
  - pose proof (clean_one_line _ (info_hash_clean h)) as F. unfold one_line in F. rewrite Forall_forall in F. apply F, I.
Qed.
Lemma not_clean cs c : Forall scalar cs -> In c cs -> control c -> ~ clean (utf8 cs).
Proof.
  intros S I C (ds & D & E & N). apply (N c); auto. rewrite <- (lossy_chars_utf8 ds D), <- E, lossy_chars_utf8; auto.
Qed.
