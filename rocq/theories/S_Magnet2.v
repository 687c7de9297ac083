(** Specification: what can be wrong with a magnet link. *)
From Verif Require Import Base S_Types M_Types M_Tracker M_Udp M_Http M_Form S_Form M_Magnet S_Magnet.

(** The text after "urn:btih:" is not an info hash: 32 characters are read as base 32, all else
    as hexadecimal. *)
Definition hash_refused (x : bytes) (e : info_hash_error) : Prop :=
  match e with
  | InvalidBase32 => length x = 32%nat /\ ~ is_numeral base32_value x
  | InvalidHex => length x <> 32%nat /\ (~ is_numeral hex_value x \/ Nat.Odd (length x))
  | InvalidLength n => length x <> 32%nat /\ is_numeral hex_value x /\ length x = (2 * n)%nat /\ n <> 20%nat
  end.
Definition xt_refused (v : bytes) (e : xt_error) : Prop :=
  match e with
  | NotUrn => forall r, v <> bs "urn:" ++ r
  | NotBtih => (exists r, v = bs "urn:" ++ r) /\ forall r, v <> bs "urn:btih:" ++ r
  | XInfoHash e => exists x, v = bs "urn:btih:" ++ x /\ hash_refused x e
  end.
Section Url.
Variable parse_url : bytes -> option url.
Definition tracker_refused (s : bytes) (e : tracker_str_error) : Prop :=
  match e with
  | TSUrl => parse_url s = None
  | TSInner e => exists u, parse_url s = Some u /\
      let known := u_scheme u = bs "http" \/ u_scheme u = bs "https" \/ u_scheme u = bs "udp" in
      match e with
      | UnsupportedScheme sc => sc = u_scheme u /\ ~ known
      | NoHost => known /\ u_host u = None
      | NoUdpPort => u_scheme u = bs "udp" /\ u_host u <> None /\ u_port u = None
      end
  end.
(** Nothing is wrong with these parameters, but for an xt that may be lacking. *)
Definition fine (kvs : list (bytes * bytes)) : Prop :=
  (values (bs "xt") kvs = [] \/ exists x h, values (bs "xt") kvs = [bs "urn:btih:" ++ x] /\ denotes_hash x h) /\
  Forall (fun s => exists t, is_tracker parse_url s t) (values (bs "tr") kvs).
(** The first parameter with which something is wrong, or the lack of an xt *)
Definition link_refused (kvs : list (bytes * bytes)) (e : magnet_error) : Prop :=
  (fine kvs /\ values (bs "xt") kvs = [] /\ e = NoXt) \/
  exists pre k v post, kvs = pre ++ (k, v) :: post /\ fine pre /\
    ((k = bs "xt" /\ values (bs "xt") pre = [] /\ exists x, xt_refused v x /\ e = InvalidXt x) \/
     (k = bs "xt" /\ values (bs "xt") pre <> [] /\ e = MultipleXt) \/
     (k = bs "tr" /\ exists x, tracker_refused v x /\ e = InvalidTracker x)).
Definition magnet_refused (s : bytes) (e : magnet_error) : Prop :=
  (parse_url s = None /\ e = MgUrl) \/
  exists u, parse_url s = Some u /\
    ((u_scheme u <> bs "magnet" /\ e = NotMagnet) \/
     (u_scheme u = bs "magnet" /\ exists raw, form (query_text (u_query u)) raw /\ link_refused (map (lossy_pair M_Utf8.from_utf8_lossy) raw) e)).
End Url.
