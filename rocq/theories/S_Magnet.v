(** Specification: magnet links and files of magnet links. *)
From Verif Require Import Base S_Utf8 S_Types M_Net M_IpText M_Tracker M_Udp M_Http M_Magnet.

Definition lossy_pair (lossy : bytes -> bytes) (kv : bytes * bytes) := (lossy (fst kv), lossy (snd kv)).
(** All values of a parameter, in order. *)
Definition values (k : bytes) (kvs : list (bytes * bytes)) : list bytes :=
  map snd (filter (fun kv => bytes_eqb (fst kv) k) kvs).
Definition last_value (k : bytes) (kvs : list (bytes * bytes)) : option bytes :=
  match rev (values k kvs) with [] => None | v :: _ => Some v end.

(** 40 hexadecimal digits or 32 base-32 digits, of that number. *)
Definition denotes_hash (x h : bytes) : Prop :=
  length h = 20%nat /\
  ((length x = 40%nat /\ number 16 hex_value x = Some (be_val h)) \/
   (length x = 32%nat /\ number 32 base32_value x = Some (be_val h))).

(** Supported tracker URLs. *)
Definition supported (u : url) (t : tracker) : Prop :=
  ((u_scheme u = bs "http" \/ u_scheme u = bs "https") /\ u_host u <> None /\ t = THttp u) \/
  (u_scheme u = bs "udp" /\ exists host port,
     (u_host u = Some (HDomain host) \/ exists i, u_host u = Some (HIp i) /\ host = show_ip i) /\
     u_port u = Some port /\
     t = TUdp (mkUU host port (u_path u ++ match u_query u with Some q => bs "?" ++ q | None => [] end))).

Definition magnet_says (is_tracker : bytes -> tracker -> Prop) (kvs : list (bytes * bytes)) (m : magnet) : Prop :=
  (exists x, values (bs "xt") kvs = [bs "urn:btih:" ++ x] /\ denotes_hash x (mg_hash m)) /\
  mg_dn m = last_value (bs "dn") kvs /\
  Forall2 is_tracker (values (bs "tr") kvs) (mg_trackers m).

(** ** Files *)
Inductive lines : bytes -> list bytes -> Prop :=
| lines_nil : lines [] []
| lines_last s : s <> [] -> ~ In x0a s -> lines s [s]
| lines_cons s r l : ~ In x0a s -> lines r l -> lines (s ++ x0a :: r) (s :: l).

(** Unicode White_Space *)
Definition white (c : N) : Prop :=
  (9 <= c <= 13) \/ c = 32 \/ c = 133 \/ c = 160 \/ c = 5760 \/ (8192 <= c <= 8202) \/
  c = 8232 \/ c = 8233 \/ c = 8239 \/ c = 8287 \/ c = 12288.
(** [t] is the text [s] without surrounding white space. *)
Definition trimmed (s t : bytes) : Prop :=
  exists a m b, Forall scalar (a ++ m ++ b) /\ s = utf8 (a ++ m ++ b) /\ t = utf8 m /\
    Forall white a /\ Forall white b /\
    (forall c r, m = c :: r -> ~ white c) /\ (forall c r, m = r ++ [c] -> ~ white c).
Definition is_text (s : bytes) : Prop := exists cs, Forall scalar cs /\ s = utf8 cs.
Definition ignored (t : bytes) : Prop := t = [] \/ exists r, t = "#"%byte :: r.

Section Url.
Variable parse_url : bytes -> option url.
Definition is_tracker (s : bytes) (t : tracker) : Prop := exists u, parse_url s = Some u /\ supported u t.
(** What a line contributes. *)
Definition line_ok (l : bytes) (o : list magnet) : Prop :=
  exists t, trimmed l t /\
    ((ignored t /\ o = []) \/ (~ ignored t /\ exists m, magnet_from_str parse_url t = Ok m /\ o = [m])).
(** A line refused as a magnet link. *)
Definition line_bad (l : bytes) (e : magnet_error) : Prop :=
  exists t, trimmed l t /\ ~ ignored t /\ magnet_from_str parse_url t = Err e.
(** Result for the lines [ls], the first of which is line [i] + 1, after [acc]. *)
Definition file_result (ls : list bytes) (i : nat) (acc : list magnet) (r : res magnets_file_error (list magnet)) : Prop :=
  match r with
  | Ok ms => exists os, Forall2 line_ok ls os /\ ms = acc ++ concat os
  | Err (MFParse n e) => exists pre l post os, ls = pre ++ l :: post /\ n = (i + length pre + 1)%nat /\ Forall2 line_ok pre os /\ line_bad l e
  | Err MFRead => exists pre l post os, ls = pre ++ l :: post /\ Forall2 line_ok pre os /\ ~ is_text l
  end.
End Url.
