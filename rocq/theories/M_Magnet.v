(** Model of src/magnet.rs: magnet links and magnet files (downloads: M_Resolve). *)
From Verif Require Import Base S_Utf8 M_Utf8 M_Types M_Tracker M_Udp M_Form M_Http.

(** str::strip_prefix *)
Fixpoint strip_prefix (p s : bytes) : option bytes :=
  match p, s with
  | [], _ => Some s
  | x :: p', y :: s' => if Byte.eqb x y then strip_prefix p' s' else None
  | _ :: _, [] => None
  end.

(** src/magnet.rs:202-210 XtError *)
Inductive xt_error := NotUrn | NotBtih | XInfoHash (e : info_hash_error).
(** src/magnet.rs:192-200 parse_xt *)
Definition parse_xt (xt : bytes) : res xt_error bytes :=
  match strip_prefix (bs "urn:") xt with
  | None => Err NotUrn
  | Some s =>
      match strip_prefix (bs "btih:") s with
      | None => Err NotBtih
      | Some s => res_map_err XInfoHash (parse_info_hash s)
      end
  end.

(** src/magnet.rs:16-21 Magnet *)
Record magnet := mkMagnet { mg_hash : bytes; mg_dn : option bytes; mg_trackers : list tracker }.

(** src/tracker/mod.rs:224-233 TrackerUrlError including url::ParseError *)
Inductive tracker_str_error := TSUrl | TSInner (e : tracker_url_error).
(** src/magnet.rs:176-190 MagnetError *)
Inductive magnet_error :=
| MgUrl | NotMagnet | NoXt | InvalidXt (e : xt_error) | MultipleXt | InvalidTracker (e : tracker_str_error).

Section Magnet.
(** Url::parse of crate url, restricted to the components used *)
Variable parse_url : bytes -> option url.

(** src/tracker/mod.rs:122-133 FromStr for Tracker *)
Definition tracker_from_str (s : bytes) : res tracker_str_error tracker :=
  match parse_url s with
  | None => Err TSUrl
  | Some u => res_map_err TSInner (tracker_of u)
  end.

(** src/magnet.rs:124-142: the loop over url.query_pairs() *)
Fixpoint magnet_go (kvs : list (bytes * bytes)) (ih dn : option bytes) (trs : list tracker)
  : res magnet_error (option bytes * option bytes * list tracker) :=
  match kvs with
  | [] => Ok (ih, dn, trs)
  | (k, v) :: r =>
      if bytes_eqb k (bs "xt") then
        match ih with
        | None => let? h := res_map_err InvalidXt (parse_xt v) in magnet_go r (Some h) dn trs
        | Some _ => Err MultipleXt
        end
      else if bytes_eqb k (bs "dn") then magnet_go r ih (Some v) trs
      else if bytes_eqb k (bs "tr") then
        let? t := res_map_err InvalidTracker (tracker_from_str v) in magnet_go r ih dn (trs ++ [t])
      else magnet_go r ih dn trs
  end.
(** src/magnet.rs:116-152 FromStr for Magnet *)
Definition magnet_from_str (s : bytes) : res magnet_error magnet :=
  match parse_url s with
  | None => Err MgUrl
  | Some u =>
      if negb (bytes_eqb (u_scheme u) (bs "magnet")) then Err NotMagnet
      else
        let? (ih, dn, trs) := magnet_go (query_pairs u) None None [] in
        match ih with
        | None => Err NoXt
        | Some h => Ok (mkMagnet h dn trs)
        end
  end.

(** char::is_whitespace (Unicode White_Space) *)
Definition is_white (c : N) : bool :=
  ((9 <=? c) && (c <=? 13)) || (c =? 32) || (c =? 133) || (c =? 160) || (c =? 5760)
  || ((8192 <=? c) && (c <=? 8202)) || (c =? 8232) || (c =? 8233) || (c =? 8239) || (c =? 8287) || (c =? 12288).
Fixpoint drop_white (cs : list N) : list N :=
  match cs with c :: r => if is_white c then drop_white r else cs | [] => [] end.
(** str::trim *)
Definition trim (s : bytes) : bytes :=
  utf8 (rev (drop_white (rev (drop_white (lossy_chars s))))).

(** InputArg::async_lines (crate patharg, on tokio's Lines): split at "\n", strip one
    "\r" before it; text after the last "\n" counts unless empty *)
Fixpoint raw_lines (s cur : bytes) : list bytes :=
  match s with
  | [] => match cur with [] => [] | _ => [rev cur] end
  | c :: r => if Byte.eqb c x0a then rev cur :: raw_lines r [] else raw_lines r (c :: cur)
  end.
Definition strip_cr (s : bytes) : bytes :=
  match rev s with c :: r => if Byte.eqb c x0d then rev r else s | [] => s end.

(** src/magnet.rs:254-266 MagnetsFileError (opening the file is not modelled) *)
Inductive magnets_file_error := MFRead | MFParse (lineno : nat) (e : magnet_error).
(** src/magnet.rs:228-252 parse_magnets_file; a line that is not UTF-8 is an I/O
    error of the line reader *)
Fixpoint magnets_go (i : nat) (ls : list bytes) (acc : list magnet) : res magnets_file_error (list magnet) :=
  match ls with
  | [] => Ok acc
  | l :: r =>
      if negb (utf8_valid l) then Err MFRead
      else
        let ln := trim (strip_cr l) in
        match ln with
        | [] => magnets_go (S i) r acc
        | c :: _ =>
            if Byte.eqb c "#" then magnets_go (S i) r acc
            else match magnet_from_str ln with
                 | Ok m => magnets_go (S i) r (acc ++ [m])
                 | Err e => Err (MFParse (i + 1) e)
                 end
        end
  end.
Definition parse_magnets_file (content : bytes) : res magnets_file_error (list magnet) :=
  magnets_go 0 (raw_lines content []) [].
End Magnet.
