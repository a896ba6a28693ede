(* What a torrent document says, in terms of its dictionary.                   *)
From Verif Require Import Base ModelBencode SpecText ModelUnmarshal SpecUnmarshal ModelTorrent.

Definition value_of (m : list (bytes * ben)) (k : string) (v : ben) : Prop := lookup (str k) m = Some v /\ v <> BNil.
Arguments value_of m k%string_scope v.
(* an element as text: the bytes of a string (other elements as printed) *)
Definition as_text (v : ben) (s : bytes) : Prop := v <> BNil /\ s = text v.
Definition as_number (v : ben) (n : Z) : Prop := int_literal (text v) n /\ - 2 ^ 63 <= n < 2 ^ 63.
Definition as_list {A} (P : ben -> A -> Prop) (v : ben) (l : list A) : Prop := exists vs raw, v = BList true vs raw /\ Forall2 P vs l.
Definition as_file (v : ben) (f : tfile) : Prop :=
  exists m raw p n, v = BDict true m raw /\ value_of m "path" p /\ as_list as_text p (tf_path f) /\ value_of m "length" n /\ as_number n (tf_length f).

Definition required {A} (m : list (bytes * ben)) (k : string) (P : ben -> A -> Prop) (x : A) : Prop := exists v, value_of m k v /\ P v x.
Definition optional {A} (m : list (bytes * ben)) (k : string) (P : ben -> A -> Prop) (d x : A) : Prop :=
  (absent m (str k) /\ x = d) \/ required m k P x.
Arguments required {A} m k%string_scope P x.
Arguments optional {A} m k%string_scope P d x.

(* the torrent of a document whose top-level dictionary is m *)
Definition says (m : list (bytes * ben)) (t : metainfo) : Prop :=
  exists info raw, value_of m "info" (BDict true info raw) /\
    required m "announce" as_text (mi_announce t) /\
    optional m "announce-list" (as_list (as_list as_text)) [] (mi_announce_list t) /\
    optional m "url-list" (as_list as_text) [] (mi_url_list t) /\
    optional info "files" (as_list as_file) [] (mi_files t) /\
    optional info "length" as_number 0 (mi_length t) /\
    required info "name" as_text (mi_name t) /\
    required info "piece length" as_number (mi_piece_length t) /\
    required info "pieces" as_text (mi_pieces t).
