(* Theorems about message framing on the wire (properties C18, C19).           *)
From Verif Require Import Base ProofBase ModelMsg SpecMsg ModelConn ProofConn.

(* ---------- C18 ---------- *)
(* bodies: the frames sent; cs: how the bytes are cut into reads; tl: whatever
   happens afterwards *)
Theorem C18_framing_independent_of_segmentation :
  forall bodies cs tl rest, Forall (fun b => is_u32 (zlen b)) bodies ->
    concat cs = concat (map frame bodies) ++ rest ->
    exists cs', read_messages (length bodies) (map Chunk cs ++ tl) = (map ROk bodies, map Chunk cs' ++ tl) /\ concat cs' = rest.
Proof. exact read_messages_ok. Qed.

(* for arbitrary bytes too, the outcome does not depend on the segmentation *)
Theorem C18_same_bytes_same_outcome :
  forall cs1 cs2 tl, Forall is_byte (concat cs1) -> concat cs1 = concat cs2 ->
    exists r s1 s2, ReadPeerMessage (map Chunk cs1 ++ Timeout :: tl) = (r, s1) /\ ReadPeerMessage (map Chunk cs2 ++ Timeout :: tl) = (r, s2) /\
      ((exists c1 c2, s1 = map Chunk c1 ++ Timeout :: tl /\ s2 = map Chunk c2 ++ Timeout :: tl /\ concat c1 = concat c2) \/ s1 = tl /\ s2 = tl).
Proof. exact read_message_bytes. Qed.

(* a frame cut short by the end of the connection is an error, never a body *)
Theorem C18_incomplete_frame_is_an_error :
  forall cs tl body, is_u32 (zlen body) -> (exists missing, missing <> [] /\ frame body = concat cs ++ missing) ->
    exists e, ReadPeerMessage (map Chunk cs ++ Eof :: tl) = (RErr e, Eof :: tl).
Proof. exact read_message_cut_eof. Qed.

Example C18_ex :
  read_messages 3 (map Chunk [[0;0]; [0]; [2;9]; [8;0;0;0;0;0;0]; [0;1]; [5;77]]) = ([ROk [9;8]; ROk []; ROk [5]], [Chunk [77]]).
Proof. reflexivity. Qed.

(* ---------- C19 ---------- *)
(* The full claim: whenever the deadline passes while a frame is arriving (in two
   parts, a before and b after), the next call returns that frame. *)
Theorem C19_timeout_keeps_framing_refuted :
  ~ (forall body a b, is_u32 (zlen body) -> frame body = a ++ b -> b <> [] ->
       exists s1, ReadPeerMessage [Chunk a; Timeout; Chunk b] = (RErr ETimeout, s1) /\
         exists s2, ReadPeerMessage s1 = (ROk body, s2)).
Proof.
  intros H. destruct (H [4; 0; 0; 0; 0] [0; 0; 0; 5] [4; 0; 0; 0; 0]) as (s1 & E1 & s2 & E2).
  - unfold is_u32, zlen. cbn [length]. lia.
  - reflexivity.
  - discriminate.
  - vm_compute in E1. inversion E1; subst. vm_compute in E2. discriminate.
Qed.

(* Exactly: the call fails and all that had arrived of the frame is dropped, so
   the next call starts in the middle of it. *)
Theorem C19_timeout_drops_prefix_exact :
  forall cs tl body, is_u32 (zlen body) -> (exists missing, missing <> [] /\ frame body = concat cs ++ missing) ->
    ReadPeerMessage (map Chunk cs ++ Timeout :: tl) = (RErr ETimeout, tl).
Proof. exact read_message_cut. Qed.

(* so the body of a frame can pose as frames of its own: if the deadline passes
   after the length prefix, the sender's body is parsed as a stream of frames *)
Theorem C19_body_taken_for_frames :
  forall inner rest, Forall (fun b => is_u32 (zlen b)) inner -> is_u32 (zlen (concat (map frame inner))) -> inner <> [] ->
    exists s1 cs', ReadPeerMessage [Chunk (be32 (zlen (concat (map frame inner)))); Timeout; Chunk (concat (map frame inner) ++ rest)] = (RErr ETimeout, s1) /\
      read_messages (length inner) s1 = (map ROk inner, map Chunk cs') /\ concat cs' = rest.
Proof.
  intros inner rest Hi Hu Hn. set (body := concat (map frame inner)) in *.
  exists [Chunk (body ++ rest)].
  destruct (read_messages_ok inner [body ++ rest] [] rest Hi) as (cs' & E1 & E2).
  { cbn. now rewrite app_nil_r. }
  cbn [map app] in E1. rewrite app_nil_r in E1. exists cs'. split; [|split]; [|exact E1|exact E2].
  apply (read_message_cut [be32 (zlen body)] [Chunk (body ++ rest)] body Hu).
  exists body. split; [|unfold frame; cbn [concat]; now rewrite app_nil_r].
  destruct inner as [|i inner]; [congruence|]. unfold body. cbn. discriminate.
Qed.

(* harmless when it falls between frames *)
Theorem C19_timeout_between_frames_partial :
  forall bodies cs tl rest, Forall (fun b => is_u32 (zlen b)) bodies -> concat cs = concat (map frame bodies) ++ rest ->
    ReadPeerMessage (Timeout :: map Chunk cs ++ tl) = (RErr ETimeout, map Chunk cs ++ tl) /\
    exists cs', read_messages (length bodies) (map Chunk cs ++ tl) = (map ROk bodies, map Chunk cs' ++ tl) /\ concat cs' = rest.
Proof. intros. split; [reflexivity|]. now apply read_messages_ok. Qed.

(* the body is the frame "unchoke" followed by "have 9" *)
Example C19_ex :
  let body := [0;0;0;1;1; 0;0;0;5;4;0;0;0;9] in
  exists s1, ReadPeerMessage [Chunk [0;0;0;14]; Timeout; Chunk body] = (RErr ETimeout, s1) /\
    read_messages 2 s1 = ([ROk [1]; ROk [4;0;0;0;9]], []).
Proof. eexists. split; reflexivity. Qed.

Print Assumptions C18_framing_independent_of_segmentation.
Print Assumptions C18_same_bytes_same_outcome.
Print Assumptions C18_incomplete_frame_is_an_error.
Print Assumptions C19_timeout_keeps_framing_refuted.
Print Assumptions C19_timeout_drops_prefix_exact.
Print Assumptions C19_body_taken_for_frames.
Print Assumptions C19_timeout_between_frames_partial.
