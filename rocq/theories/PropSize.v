(* Theorems about the amounts shown to people (properties C97, C98).            *)
From Coq Require Import Reals Lra Floats.SpecFloat.
From Verif Require Import Base ModelStats ModelSize SpecSize ProofSize.

(* ---------- C97 ---------- *)
Theorem C97_size_right : forall n, 0 <= n < 2 ^ 64 -> size_text n (ByteSize n).
Proof. exact size_right. Qed.
(* The full claim: and the number is below 1024, the next unit being used from there on. *)
Theorem C97_below_1024_refuted :
  ~ (forall n, 0 <= n < 2 ^ 64 -> exists t letter, 0 <= t < 10240 /\ ByteSize n = brief t ++ str letter /\ In letter letters).
Proof.
  intros H. destruct (H 1048575 ltac:(lia)) as (t & letter & Ht & E & L).
  change (ByteSize 1048575) with (str "1024K") in E. unfold letters in L. cbn [In] in L.
  assert (S : brief t = str "1024").
  { apply (f_equal (firstn 4)) in E as E4. apply (f_equal (@length Z)) in E as E5. rewrite app_length in E5.
    assert (length (str letter) = 1%nat) as El by (destruct L as [<-|[<-|[<-|[<-|[<-|[<-|[<-|[]]]]]]]]; reflexivity). rewrite El in E5. cbn in E5.
    assert (length (brief t) = 4%nat) as Eb by lia. rewrite firstn_app, (firstn_all2 (brief t)), Eb in E4 by lia.
    change (firstn (4 - 4) (str letter)) with (@nil Z) in E4. rewrite app_nil_r in E4. symmetry. exact E4. }
  revert S. apply brief_1024. exact Ht.
Qed.
(* exactly: 1024 is shown for the upper half of the last tenth of a unit *)
Theorem C97_below_1024_exact :
  forall n, 1 <= n < 2 ^ 53 -> exists k letter t,
    nth_error letters k = Some letter /\ 1024 ^ Z.of_nat k <= n < 1024 ^ Z.of_nat (S k) /\ ByteSize n = brief t ++ str letter /\
    10 <= t <= 10240 /\ (t = 10240 <-> 20479 * 1024 ^ Z.of_nat k <= 20 * n).
Proof. exact size_1024. Qed.
Example C97_ex :
  ByteSize 0 = str "0B" /\ ByteSize 1023 = str "1023B" /\ ByteSize 1024 = str "1K" /\ ByteSize 1536 = str "1.5K" /\ ByteSize 571346576 = str "544.9M" /\
  ByteSize 1048524 = str "1023.9K" /\ ByteSize 1048525 = str "1024K" /\ ByteSize (2 ^ 64 - 1) = str "16E".
Proof. repeat split; reflexivity. Qed.

(* ---------- C98 ---------- *)
Theorem C98_line_right :
  forall s ns, 1 <= st_size s < 2 ^ 64 -> 0 <= st_download s <= st_size s -> 0 <= st_left s < 2 ^ 64 -> 0 <= st_peers s -> 0 <= st_trackers s -> 1 <= ns < 2 ^ 63 ->
    exists p d l v, ProgressLine s ns = Ok (line p d l v (st_peers s) (st_trackers s)) /\
      0 <= p <= 100 /\ percent_near (st_size s) (st_download s) p /\ size_text (st_download s) d /\ size_text (st_left s) l /\ speed_text (st_download s) ns v.
Proof. exact line_right. Qed.
(* what percent_of gives when the counter has grown between the two loads *)
Theorem C98_percent_right : forall size d0 n, 1 <= size < 2 ^ 64 -> 1 <= d0 -> 1 <= n <= size -> percent_near size n (percent_of size d0 n).
Proof. exact percent_right. Qed.
Example C98_ex :
  ProgressLine (mkStats 10485760 5242880 0 5242880 3 2) 2500000000 = Ok (line 50 (str "5M") (str "5M") (str "2.0") 3 2) /\
  ProgressLine (mkStats 10485760 0 0 10485760 0 1) 1 = Ok (line 0 (str "0B") (str "10M") (str "0.0") 0 1).
Proof. split; vm_compute; reflexivity. Qed.
(* at the very start there is no speed *)
Example C98_no_time : FormatFloat (Speed 0 0) = str "NaN" /\ FormatFloat (Speed 1 0) = str "+Inf".
Proof. split; reflexivity. Qed.

Print Assumptions C97_size_right.
Print Assumptions C97_below_1024_refuted.
Print Assumptions C97_below_1024_exact.
Print Assumptions C98_line_right.
Print Assumptions C98_percent_right.
