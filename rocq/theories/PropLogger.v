(* Property C58. *)
From Verif Require Import Base ModelLogger SpecLogger ProofLogger.

(* The full claim: a logger is made exactly for the documented settings. *)
Theorem C58_documented_levels_refuted :
  ~ (forall l f, ascii l -> ascii f ->
       (is_ok (NewCommandLine l f) = true <-> one_of documented_levels l /\ one_of documented_formats f)).
Proof. exact levels_refuted. Qed.
(* What is accepted instead: "silent" spelled exactly so, and then any format;
   warn but not warning, and no trace; nothing at all means info and color.     *)
Theorem C58_accepted_exact :
  forall l f, ascii l -> ascii f ->
    (is_ok (NewCommandLine l f) = true <->
     l = str "silent" \/
     (one_of [str "debug"; str "info"; str "warn"; str "error"; []] l /\ one_of [str "text"; str "color"; str "json"; []] f)).
Proof. intros. apply accepted_exact. Qed.
(* and which logger it is *)
Theorem C58_logger_exact :
  forall l f x, ascii l -> ascii f ->
    (NewCommandLine l f = Ok x <->
     match x with Nop => l = str "silent" | Logger lv e => one_of (level_names lv) l /\ one_of (encoder_names e) f end).
Proof. intros. apply logger_exact. Qed.
Theorem C58_trace_warning_rejected :
  forall l f, ascii l -> ascii f -> one_of [str "trace"; str "warning"] l -> exists e, NewCommandLine l f = Err e.
Proof. intros. apply trace_warning_rejected. assumption. Qed.
(* the part of the claim that holds *)
Theorem C58_documented_levels_partial :
  forall l f, ascii l -> ascii f ->
    one_of [str "info"; str "debug"; str "error"] l -> one_of documented_formats f -> is_ok (NewCommandLine l f) = true.
Proof. intros. apply documented_formats_ok; assumption. Qed.
Example C58_ex : NewCommandLine (str " Debug") (str "JSON ") = Ok (Logger DebugLevel JsonEncoder) /\
  NewCommandLine (str "silent") (str "nonsense") = Ok Nop /\ is_ok (NewCommandLine (str "SILENT") (str "text")) = false /\
  is_ok (NewCommandLine (str "warning") (str "text")) = false /\ NewCommandLine [32] [] = Ok (Logger InfoLevel ColorEncoder).
Proof. vm_compute. repeat split; reflexivity. Qed.
Example C58_ex_spelled : spelled (str "debug") (str " Debug") /\ ascii (str " Debug") /\ spelled (str "json") (str "JSON ").
Proof. split; [|split].
  - exists [32], (str "Debug"), []. split; [reflexivity|]. split; [constructor; [cbn; auto 10|constructor]|]. split; [|constructor]. cbn. repeat constructor; unfold letter; lia.
  - repeat constructor; lia.
  - exists [], (str "JSON"), [32]. split; [reflexivity|]. split; [constructor|]. split; [|constructor; [cbn; auto 10|constructor]]. cbn. repeat constructor; unfold letter; lia. Qed.

Print Assumptions C58_documented_levels_refuted.
Print Assumptions C58_accepted_exact.
Print Assumptions C58_logger_exact.
Print Assumptions C58_trace_warning_rejected.
Print Assumptions C58_documented_levels_partial.
