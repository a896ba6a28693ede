(* C145, C146: the text of announce URLs. *)
From Verif Require Import Base ModelBencode ModelUnmarshal SpecUnmarshal ModelTracker SpecTracker ProofTracker SpecQuery ProofQuery.

(* ---------- C145 ---------- *)
Theorem C145_spelled :
  forall addr kvs, kvs <> [] -> Forall byte_pair kvs -> ~ In 63 addr -> ~ In 35 addr ->
    spells_query kvs (query_of (announce_url addr kvs)).
Proof. exact query_spelled. Qed.
Theorem C145_one_way : forall kvs q1 q2, spells_query kvs q1 -> spells_query kvs q2 -> q1 = q2.
Proof. exact spells_query_unique. Qed.
Theorem C145_characters :
  forall addr kvs, Forall byte_pair kvs -> ~ In 63 addr -> ~ In 35 addr ->
    Forall (fun c => plain c \/ In c (str "%+=&")) (query_of (announce_url addr kvs)).
Proof. exact query_chars. Qed.
Theorem C145_announce :
  forall addr clientId trackerId event hash d, ~ In 63 addr -> ~ In 35 addr ->
    Forall is_byte clientId -> Forall is_byte trackerId -> Forall is_byte event -> Forall is_byte hash ->
    0 <= a_downloaded d -> 0 <= a_uploaded d -> 0 <= a_left d -> 0 <= a_port d ->
    exists h i t e down up left port, spells hash h /\ spells clientId i /\ spells trackerId t /\ spells event e /\
      decimal down (a_downloaded d) /\ decimal up (a_uploaded d) /\ decimal left (a_left d) /\ decimal port (a_port d) /\
      announce_url addr (buildQuery clientId trackerId event hash d) =
        addr ++ str "?compact=1&downloaded=" ++ down ++ str "&event=" ++ e ++ str "&info_hash=" ++ h ++ str "&left=" ++ left ++
        str "&no_peer_id=1&numwant=50&peer_id=" ++ i ++ str "&port=" ++ port ++ str "&trackerid=" ++ t ++ str "&uploaded=" ++ up.
Proof. exact announce_text. Qed.
Example C145_ex : announce_url (str "http://t/a") (buildQuery (str "-GO0100-") (str "u-1") (str "started") [0; 255; 47; 48; 57; 58; 64; 65; 90; 91; 96; 97; 122; 123; 126; 32; 43; 37] (mkAnn 10 0 7 6881)) =
  str "http://t/a?compact=1&downloaded=10&event=started&info_hash=%00%FF%2F09%3A%40AZ%5B%60az%7B~+%2B%25&left=7&no_peer_id=1&numwant=50&peer_id=-GO0100-&port=6881&trackerid=u-1&uploaded=0".
Proof. vm_compute. reflexivity. Qed.

(* ---------- C146 ---------- *)
(* The full claim. *)
Theorem C146_hash_refuted :
  ~ forall addr clientId trackerId event hash d, ~ In 63 addr -> ~ In 35 addr ->
    Forall is_byte clientId -> Forall is_byte trackerId -> Forall is_byte event -> Forall is_byte hash ->
    0 <= a_downloaded d -> 0 <= a_uploaded d -> 0 <= a_left d -> 0 <= a_port d ->
    exists q, percent_query (query_of (announce_url addr (buildQuery clientId trackerId event hash d))) = Some q /\
      lookup (str "info_hash") q = Some hash /\ lookup (str "peer_id") q = Some clientId.
Proof.
  intros H. assert (B : Forall is_byte [32]) by (repeat constructor; unfold is_byte; lia).
  destruct (H [] [] [] [] [32] (mkAnn 0 0 0 0) (fun x => x) (fun x => x) (Forall_nil _) (Forall_nil _) (Forall_nil _) B (Z.le_refl 0) (Z.le_refl 0) (Z.le_refl 0) (Z.le_refl 0)) as (q & E & I & _).
  vm_compute in E. injection E as <-. vm_compute in I. discriminate.
Qed.
(* Exactly: a plus sign is read wherever the hash has a space. *)
Theorem C146_hash_exact :
  forall addr clientId trackerId event hash d, ~ In 63 addr -> ~ In 35 addr ->
    Forall is_byte clientId -> Forall is_byte trackerId -> Forall is_byte event -> Forall is_byte hash ->
    0 <= a_downloaded d -> 0 <= a_uploaded d -> 0 <= a_left d -> 0 <= a_port d ->
    exists q, percent_query (query_of (announce_url addr (buildQuery clientId trackerId event hash d))) = Some q /\
      lookup (str "info_hash") q = Some (plussed hash) /\ lookup (str "peer_id") q = Some (plussed clientId).
Proof. exact percent_hash. Qed.
Theorem C146_right_iff_partial : forall s, plussed s = s <-> ~ In 32 s.
Proof. exact plussed_same. Qed.
Example C146_ex : let hash := str "0123456789 abcdefghi" in
  option_map (lookup (str "info_hash")) (percent_query (query_of (announce_url (str "http://t/a") (buildQuery (str "-GO0100-") (str "u-1") (str "started") hash (mkAnn 10 0 7 6881))))) =
    Some (Some (str "0123456789+abcdefghi")) /\
  option_map (lookup (str "info_hash")) (decode_query (query_of (announce_url (str "http://t/a") (buildQuery (str "-GO0100-") (str "u-1") (str "started") hash (mkAnn 10 0 7 6881))))) =
    Some (Some hash).
Proof. split; vm_compute; reflexivity. Qed.

Print Assumptions C145_spelled.
Print Assumptions C145_one_way.
Print Assumptions C145_characters.
Print Assumptions C145_announce.
Print Assumptions C146_hash_refuted.
Print Assumptions C146_hash_exact.
Print Assumptions C146_right_iff_partial.
