(* C132: the protocol of a tracker from its URL; C67: URLs with a fragment. *)
From Verif Require Import Base ModelTracker SpecTracker ModelUrl SpecUrl ProofUrl.

(* ---------- C132 ---------- *)
(* ok: whether what follows the scheme can be parsed; dial: whether the UDP socket opens. *)
Theorem C132_protocol ok u dial k : NewTracker (Scheme ok u) dial = Ok k <->
  ok u = true /\ clean u /\ exists s, scheme_of u s /\ ((k = KUdp /\ dial = true /\ any_case s (str "udp")) \/ (k = KHttp /\ (any_case s (str "http") \/ any_case s (str "https")))).
Proof. exact (url_exact ok u dial k). Qed.
Example C132_ex : let ok := fun _ => true in
  NewTracker (Scheme ok (str "HTTPS://t/a")) false = Ok KHttp /\ NewTracker (Scheme ok (str "Udp://t:80")) true = Ok KUdp /\
  NewTracker (Scheme ok (str "http:t#" ++ [10])) false = Ok KHttp /\ NewTracker (Scheme ok (str "http://t/a" ++ [10])) false = Err "url" /\
  NewTracker (Scheme ok (str " http://t/a")) false = Err "unsupported tracker protocol" /\ NewTracker (Scheme ok (str "://t/a")) false = Err "url" /\
  NewTracker (Scheme ok (str "wss://t/a")) true = Err "unsupported tracker protocol" /\ NewTracker (Scheme ok (str "t/a")) true = Err "unsupported tracker protocol".
Proof. vm_compute. repeat split. Qed.
Example C132_ex_hyps : clean (str "HTTPS://t/a") /\ scheme_of (str "HTTPS://t/a") (str "HTTPS") /\ any_case (str "HTTPS") (str "https").
Proof.
  split; [apply clean_iff; reflexivity|]. split; [apply (sch 72 (str "TTPS") (str "//t/a")); [right; lia|]; vm_compute; repeat (constructor; [left; right; split; discriminate|]); constructor|].
  vm_compute. repeat (constructor; [right; split; [split; discriminate|reflexivity]|]). constructor.
Qed.

(* ---------- C67 ---------- *)
(* If the announce URL has a fragment, nothing of the announce is in the query. *)
Theorem C67_fragment_exact addr kvs : In 35 addr -> query_of (announce_url addr kvs) = query_of addr.
Proof. exact (fragment_exact addr kvs). Qed.
Example C67_ex_fragment : query_of (announce_url (str "http://t/a#top") (buildQuery (str "me") (str "id") (str "started") (str "h") (mkAnn 1 2 3 4))) = [].
Proof. vm_compute. reflexivity. Qed.

Print Assumptions C132_protocol.
Print Assumptions C67_fragment_exact.
