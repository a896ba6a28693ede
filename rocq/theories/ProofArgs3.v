(* Lemmas about the command line: the process.                                 *)
From Verif Require Import Base ProofBase Sha1 ModelStats ModelTorrent ModelPeer ModelSystem ModelTracker ModelManager ModelClient ModelCmd ModelProgram ModelArgs
  SpecTracker SpecPeer SpecClient SpecArgs ProofWitness ProofClient2 ProofClient4 ProofClient5 ProofCmd ProofProgram ProofProgram2 ProofArgs ProofArgs2.

(* ---------- usage ---------- *)
Lemma usage_fails dir file : word dir -> word file -> command_line [str "download"; str "-out"; dir; file] = LBad.
Proof.
  intros WD WF. unfold command_line. rewrite (find_first SubDownload (str "download")); [|reflexivity|vm_compute; discriminate].
  change (helpFlag :: downloadFlags ++ rootFlags) with (table true).
  change (str "-out") with (45 :: str "out"). rewrite parse_short; [|discriminate|vm_compute; discriminate].
  change (shorts (table true) (str "out")) with (Some ([(str "out", str "ut")], @None flag)).
  rewrite (parse_word true dir _ WD), (parse_word true file _ WF). cbn [parseArgs add_set]. reflexivity.
Qed.
Lemma usage_refuted : ~ (forall dir file, word dir -> word file -> exists num port, command_line [str "download"; str "-out"; dir; file] = LDownload dir file num port).
Proof.
  intros H. assert (W : word (str "d")) by (right; right; vm_compute; discriminate).
  destruct (H (str "d") (str "d") W W) as (n & p & K). rewrite (usage_fails _ _ W W) in K. discriminate.
Qed.
Lemma usage_process cf look o f own outs order dir file : word dir -> word file -> gotit cf look o f own [str "download"; str "-out"; dir; file] outs order = PExit 1 f.
Proof.
  intros WD WF. unfold gotit. rewrite (usage_fails dir file WD WF). unfold prog_start, process. destruct (NewCmdRun look defaults); reflexivity.
Qed.
Lemma given_nil n : not_given [] n. Proof. intros []. Qed.
Lemma plain_says args l file num port out : says true args l [file] -> ~ In (str "help") (map fst l) -> last_given l (str "out") out ->
  number_given l (str "num-peer") 30 num -> number_given l (str "port") 6666 port -> command_line (str "download" :: args) = LDownload out file num port.
Proof.
  intros S H O N P. apply download_spec. exists l. split; [exact S|]. split; [|auto].
  intros (v & (l1 & l2 & -> & _) & _). apply H. rewrite map_app. apply in_or_app. right. now left.
Qed.
Lemma out_works dir file : word file ->
  command_line [str "download"; str "-o"; dir; file] = LDownload dir file 30 6666 /\
  command_line [str "download"; str "--out"; dir; file] = LDownload dir file 30 6666 /\
  command_line [str "download"; str "--out=" ++ dir; file] = LDownload dir file 30 6666.
Proof.
  intros WF. assert (SF : says true [file] [] [file]) by (apply sa_word; [exact WF|constructor]).
  assert (G : forall args, says true args [(str "out", dir)] [file] -> command_line (str "download" :: args) = LDownload dir file 30 6666).
  { intros args H. eapply plain_says; [exact H| | | |].
    - vm_compute. intuition discriminate.
    - exists [], []. split; [reflexivity|intros []].
    - left. split; [|reflexivity]. vm_compute. intuition discriminate.
    - left. split; [|reflexivity]. vm_compute. intuition discriminate. }
  split; [|split]; apply G.
  - change (str "-o") with (45 :: str "o"). change [(str "out", dir)] with ([] ++ [(str "out", dir)]). eapply sa_letters_next with (n := str "out") (k := Text).
    + discriminate. + vm_compute. discriminate. + apply ls_next; [now constructor|discriminate]. + exact I. + exact SF.
  - change (str "--out") with (str "--" ++ str "out"). eapply sa_next with (k := Text); [now constructor|discriminate|exact I|exact SF].
  - change (str "--out=" ++ dir) with (str "--" ++ str "out" ++ 61 :: dir). eapply sa_equals with (k := Text); [now constructor|exact I|exact SF].
Qed.

(* ---------- numbers ---------- *)
Lemma long_equals d n k v r : named d n k -> exists f, fl_name f = n /\ sort_of (fl_kind f) = k /\
  parseArgs (table d) ((str "--" ++ n ++ 61 :: v) :: r) = match set_flag f v with Some x => add_set [x] (parseArgs (table d) r) | None => None end.
Proof.
  intros N. destruct (inv_long_name d n k v N) as (f & E1 & E2 & E3 & _). exists f. split; [exact E1|]. split; [exact E2|].
  rewrite parse_long by (intros K; apply app_eq_nil in K as [_ K]; discriminate). now rewrite E3.
Qed.
Lemma port_line out file s p : word file ->
  command_line [str "download"; str "--out=" ++ out; str "--port=" ++ s; file] = LDownload out file 30 p <-> written_number s p.
Proof.
  intros WF. split.
  - intros H. unfold command_line in H. rewrite (find_first SubDownload (str "download")) in H; [|reflexivity|vm_compute; discriminate].
    change (helpFlag :: downloadFlags ++ rootFlags) with (table true) in H.
    change (str "--out=" ++ out) with (str "--" ++ str "out" ++ 61 :: out) in H. change (str "--port=" ++ s) with (str "--" ++ str "port" ++ 61 :: s) in H.
    destruct (long_equals true (str "out") Text out [str "--" ++ str "port" ++ 61 :: s; file]) as (fo & O1 & O2 & O3); [now constructor|]. rewrite O3 in H.
    destruct (long_equals true (str "port") Number s [file]) as (fp & P1 & P2 & P3); [now constructor|]. rewrite P3 in H.
    rewrite (parse_word true file _ WF) in H. cbn [parseArgs] in H.
    destruct (set_flag fo out) as [x|] eqn:EO; [|discriminate]. apply set_flag_spec in EO as [-> _]. rewrite O1 in H.
    destruct (set_flag fp s) as [x|] eqn:EP; [|discriminate]. apply set_flag_spec in EP as [-> SU]. rewrite P1 in H. rewrite P2 in SU. destruct SU as (m & W).
    cbn [add_set app] in H.
    change (helped [(str "out", out); (str "port", s)]) with false in H.
    change (value_of [(str "out", out); (str "port", s)] (str "out")) with (Some out) in H. cbv iota in H.
    pose proof (f_equal (fun x => match x with LDownload _ _ _ z => z | _ => 0 end) H) as E. cbv beta iota in E.
    change (match ParseInt0 s with Some z => z | None => 6666 end = p) in E. rewrite (proj2 (ParseInt_spec s m) W) in E. now subst.
  - intros W. eapply plain_says with (l := [(str "out", out); (str "port", s)]).
    + change (str "--out=" ++ out) with (str "--" ++ str "out" ++ 61 :: out). change (str "--port=" ++ s) with (str "--" ++ str "port" ++ 61 :: s).
      eapply sa_equals with (k := Text); [now constructor|exact I|]. eapply sa_equals with (k := Number); [now constructor|exists p; exact W|].
      apply sa_word; [exact WF|constructor].
    + vm_compute. intuition discriminate.
    + exists [], [(str "port", s)]. split; [reflexivity|]. vm_compute. intuition discriminate.
    + left. split; [|reflexivity]. vm_compute. intuition discriminate.
    + right. exists s. split; [|exact W]. exists [(str "out", out)], []. split; [reflexivity|intros []].
Qed.
Lemma decimal_fold s : Forall (fun c => 48 <= c <= 57) s -> forall n, fold_left (fun a c => a * 10 + (c - 48)) s n = n * 10 ^ Z.of_nat (length s) + amount 10 (map (fun c => c - 48) s).
Proof.
  induction 1 as [|c s H _ IH]; intros n; cbn [fold_left map amount length].
  - change (Z.of_nat 0) with 0. rewrite Z.pow_0_r. ring.
  - rewrite IH, map_length, Nat2Z.inj_succ, Z.pow_succ_r by lia. ring.
Qed.
Lemma decimal_digs s : s <> [] -> Forall (fun c => 48 <= c <= 57) s -> digs 10 s (map (fun c => c - 48) s).
Proof.
  intros N H. induction H as [|c s HC H IH]; [contradiction|]. destruct s as [|e s]; cbn [map].
  - apply digs_one, dig_dec; lia.
  - apply digs_more; [apply dig_dec; lia|apply IH; discriminate].
Qed.
Lemma decimal_written s n : decimal s n -> n < 2 ^ 63 -> hd 0 s <> 48 \/ s = [48] -> written_number s n.
Proof.
  intros (NE & F & E) L H. rewrite (decimal_fold s F 0), Z.mul_0_l, Z.add_0_l in E. apply wn_plain; [|exact L].
  destruct s as [|c s]; [contradiction|]. cbn [hd] in H. destruct (Z.eq_dec c 48) as [->|N48].
  - destruct H as [H|H]; [contradiction|]. inversion H; subst s. subst n. change (unsigned [48] (amount 8 [0])). apply un_oct. apply digs_one. apply (dig_dec 8 48); lia.
  - subst n. apply un_dec; [now apply decimal_digs|exact N48].
Qed.
Lemma decimal_line out file s n : word file -> decimal s n -> n < 2 ^ 63 -> hd 0 s <> 48 \/ s = [48] ->
  command_line [str "download"; str "--out=" ++ out; str "--port=" ++ s; file] = LDownload out file 30 n.
Proof. intros W D L H. apply port_line; [exact W|]. now apply decimal_written. Qed.
Lemma decimal_refuted : ~ (forall out file s n, word file -> decimal s n -> n < 2 ^ 63 ->
  command_line [str "download"; str "--out=" ++ out; str "--port=" ++ s; file] = LDownload out file 30 n).
Proof.
  intros H. specialize (H (str "d") (str "f") (str "010") 10). assert (W : word (str "f")) by (right; right; vm_compute; discriminate).
  assert (D : decimal (str "010") 10).
  { split; [discriminate|]. split; [|reflexivity]. vm_compute. repeat constructor; discriminate. }
  specialize (H W D eq_refl). vm_compute in H. discriminate.
Qed.

(* ---------- the port ---------- *)
Lemma gotit_download cf look o f own args outs order out file num port c : command_line args = LDownload out file num port ->
  gotit cf look o f own args outs order = PRun c -> exists t f' urls, c = client_start (with_flags cf num port) t f' outs urls.
Proof.
  intros L. unfold gotit. rewrite L. unfold prog_start. destruct (process (cf_sha1 (with_flags cf num port)) look o f defaults (CDownload out file)) as [f' [st ou v| |lg t]]; intros H; try discriminate.
  inversion H; subst. eauto.
Qed.
Lemma gotit_running cf look o f own args outs order c : gotit cf look o f own args outs order = PRun c -> exists out file num port, command_line args = LDownload out file num port.
Proof.
  unfold gotit. destruct (command_line args) as [| | | |file|out file num port]; eauto; intros H; exfalso.
  - unfold prog_start, process in H. destruct (NewCmdRun look defaults); discriminate.
  - unfold prog_start, process in H. destruct (NewCmdRun look defaults); discriminate.
  - destruct (NewCmdRun look defaults); discriminate.
  - unfold prog_start, process in H. destruct (NewCmdRun look defaults); discriminate.
  - unfold prog_start, process in H. destruct (NewCmdRun look defaults) as [l|]; [|discriminate]. destruct (bencodeCmd l o file). discriminate.
Qed.
Lemma port_announced cf look o f own args outs order out file num port c0 l c tr j u q r : command_line args = LDownload out file num port -> 0 <= port ->
  gotit cf look o f own args outs order = PRun c0 -> crun (with_flags cf num port) l c0 = (c, tr) -> In (VHttp j u q r) tr -> tells (str "port") port (VHttp j u q r).
Proof.
  intros L P G R HI. destruct (gotit_download _ _ _ _ _ _ _ _ _ _ _ _ _ L G) as (t & f' & urls & ->).
  apply in_split in HI as (t1 & t2 & E). destruct (announced_values (with_flags cf num port) t f' outs urls l c tr t1 _ t2 j P R E eq_refl) as (a & b & _ & _ & _ & H).
  cbn [reports] in H. apply H.
Qed.
Notation wide_args := [str "download"; str "--port=70000"; str "-o"; str "/o"; str "t"].
Lemma wide_run : exists c0 c tr j u q r, gotit (cx_conf sha1) (fun _ => CfgMissing) (cx_os px_doc (fun _ => true)) (fun _ => None) 0 wide_args [] (fun us => us) = PRun c0 /\
  crun (with_flags (cx_conf sha1) 30 70000) px_download c0 = (c, tr) /\ In (VHttp j u q r) tr /\ lookup (str "port") q = Some (str "70000").
Proof.
  destruct (gotit (cx_conf sha1) (fun _ => CfgMissing) (cx_os px_doc (fun _ => true)) (fun _ => None) 0 wide_args [] (fun us => us)) as [st f|c0] eqn:EG; [vm_compute in EG; discriminate|].
  assert (K : match crun (with_flags (cx_conf sha1) 30 70000) px_download c0 with (_, tr) => existsb (fun e => match e with VHttp _ _ q _ => beq (match lookup (str "port") q with Some s => s | None => [] end) (str "70000") | _ => false end) tr end = true).
  { assert (EC : c0 = match gotit (cx_conf sha1) (fun _ => CfgMissing) (cx_os px_doc (fun _ => true)) (fun _ => None) 0 wide_args [] (fun us => us) with PRun c => c | PExit _ _ => c0 end) by now rewrite EG.
    rewrite EC. clear. vm_compute. reflexivity. }
  destruct (crun (with_flags (cx_conf sha1) 30 70000) px_download c0) as [c tr] eqn:ER. apply existsb_exists in K as (e & HI & HE).
  destruct e as [| | |j u q r|] eqn:EE; try discriminate HE.
  exists c0, c, tr, j, u, q, r. split; [reflexivity|]. split; [exact ER|]. split; [exact HI|]. apply beq_eq in HE. destruct (lookup (str "port") q); [now subst|discriminate].
Qed.
Lemma port_refuted : ~ (forall cf look o f own args outs order out file num port c0 l c tr e p, command_line args = LDownload out file num port -> gotit cf look o f own args outs order = PRun c0 ->
  crun (with_flags cf num port) l c0 = (c, tr) -> In e tr -> tells (str "port") p e -> 1 <= p <= 65535).
Proof.
  intros H. destruct wide_run as (c0 & c & tr & j & u & q & r & G & R & HI & E).
  assert (T : tells (str "port") 70000 (VHttp j u q r)).
  { exists (str "70000"). split; [exact E|]. split; [discriminate|]. split; [|reflexivity]. vm_compute. repeat constructor; discriminate. }
  specialize (H _ _ _ _ _ wide_args _ _ (str "/o") (str "t") 30 70000 _ _ _ _ _ _ eq_refl G R HI T). lia.
Qed.
(* ---------- options before the command ---------- *)
Lemma strip_equals n v r : In n [str "log-level"; str "log-format"; str "config"] -> stripFlags rootFlags ((str "--" ++ n ++ 61 :: v) :: r) = stripFlags rootFlags r.
Proof.
  intros H. cbn [stripFlags].
  assert (E : existsb (Z.eqb 61) (str "--" ++ n ++ 61 :: v) = true).
  { apply existsb_exists. exists 61. split; [apply in_or_app; right; apply in_or_app; right; now left|reflexivity]. }
  assert (B : beq (str "--" ++ n ++ 61 :: v) (str "--") = false).
  { destruct (beq _ _) eqn:K; [|reflexivity]. apply beq_eq in K. apply (f_equal (@length Z)) in K. rewrite !app_length in K. cbn [length] in K. change (length (str "--")) with 2%nat in K. lia. }
  assert (P : HasPrefix (str "-") (str "--" ++ n ++ 61 :: v) = true) by (apply HasPrefix_spec; eexists; reflexivity).
  rewrite E, B, P. cbn [negb andb]. rewrite !andb_false_r. reflexivity.
Qed.
Lemma strip_next n v r : r <> [] -> In n [str "log-level"; str "log-format"; str "config"] -> stripFlags rootFlags ((str "--" ++ n) :: v :: r) = stripFlags rootFlags r.
Proof. intros N [<-|[<-|[<-|[]]]]; (destruct r; [contradiction|reflexivity]). Qed.
Lemma strip_letter v r : r <> [] -> stripFlags rootFlags (str "-l" :: v :: r) = stripFlags rootFlags r.
Proof. intros N. destruct r; [contradiction|reflexivity]. Qed.
Lemma strip_rest v r : v <> [] -> stripFlags rootFlags ((str "-l" ++ v) :: r) = stripFlags rootFlags r.
Proof.
  intros N. cbn [stripFlags]. change (str "-l" ++ v) with (45 :: 108 :: v).
  change (beq (45 :: 108 :: v) (str "--")) with false. change (HasPrefix (str "--") (45 :: 108 :: v)) with false.
  replace (zlen (45 :: 108 :: v) =? 2) with false; [|symmetry; apply Z.eqb_neq; rewrite !zlen_cons; destruct v; [contradiction|rewrite zlen_cons; pose proof (zlen_nonneg v); lia]].
  rewrite andb_false_r. cbn [andb orb]. change (HasPrefix (str "-") (45 :: 108 :: v)) with true. cbn [negb andb]. rewrite andb_false_r. reflexivity.
Qed.
Lemma strip_word n r : hd 45 n <> 45 -> stripFlags rootFlags (n :: r) = n :: stripFlags rootFlags r.
Proof.
  intros H. cbn [stripFlags]. destruct n as [|x n]; [contradiction H; reflexivity|]. cbn [hd] in H.
  assert (P1 : HasPrefix (str "--") (x :: n) = false).
  { destruct (HasPrefix (str "--") (x :: n)) eqn:E; [|reflexivity]. apply HasPrefix_spec in E as (t & E). vm_compute in E. inversion E; subst. contradiction H. reflexivity. }
  assert (P2 : HasPrefix (str "-") (x :: n) = false).
  { destruct (HasPrefix (str "-") (x :: n)) eqn:E; [|reflexivity]. apply HasPrefix_spec in E as (t & E). vm_compute in E. inversion E; subst. contradiction H. reflexivity. }
  assert (P3 : beq (x :: n) (str "--") = false).
  { destruct (beq (x :: n) (str "--")) eqn:E; [|reflexivity]. apply beq_eq in E. vm_compute in E. inversion E; subst. contradiction H. reflexivity. }
  rewrite P1, P2, P3. reflexivity.
Qed.
Lemma strip_global g : global g -> forall (n : bytes) (a : list bytes), hd 45 n <> 45 -> stripFlags rootFlags (g ++ n :: a) = n :: stripFlags rootFlags a.
Proof.
  induction 1 as [|n v g H _ IH|n v g H _ IH|v g _ IH|v g H _ IH]; intros m a HM; cbn [app].
  - now apply strip_word.
  - rewrite strip_equals by exact H. now apply IH.
  - rewrite strip_next; [now apply IH|destruct g; discriminate|exact H].
  - rewrite strip_letter; [now apply IH|destruct g; discriminate].
  - rewrite strip_rest by exact H. now apply IH.
Qed.
Lemma minus_global (g : list bytes) (n : bytes) (a : list bytes) : ~ In n g -> minus_first (g ++ n :: a) n = g ++ a.
Proof.
  induction g as [|x g IH]; intros H; cbn [app minus_first]; [now rewrite beq_refl|].
  replace (beq n x) with false; [|symmetry; destruct (beq n x) eqn:E; [apply beq_eq in E; subst; destruct H; now left|reflexivity]].
  f_equal. apply IH. intros K. apply H. now right.
Qed.
Lemma global_first (g : list bytes) (n : bytes) (a : list bytes) : global g -> In n [str "bencode"; str "download"; str "version"] -> ~ In n g -> command_line (g ++ n :: a) = command_line (n :: g ++ a).
Proof.
  intros G HN NI. assert (HM : hd 45 n <> 45) by (destruct HN as [<-|[<-|[<-|[]]]]; vm_compute; discriminate).
  assert (F : exists c, findNext n = Some c) by (destruct HN as [<-|[<-|[<-|[]]]]; eexists; reflexivity). destruct F as (c & F).
  assert (E : Find (g ++ n :: a) = Find (n :: g ++ a)).
  { rewrite (find_first c n (g ++ a) F HM). unfold Find. rewrite (strip_global g G n a HM), F, (minus_global g n a NI). reflexivity. }
  unfold command_line. now rewrite E.
Qed.
Lemma global_taken (g : list bytes) (n : bytes) (a g1 g2 : list bytes) : global g -> In n [str "bencode"; str "download"; str "version"] ->
  g ++ [n] = g1 ++ n :: g2 -> ~ In n g1 -> command_line (g ++ n :: a) = command_line (n :: g1 ++ g2 ++ a).
Proof.
  intros G HN EG NI. assert (HM : hd 45 n <> 45) by (destruct HN as [<-|[<-|[<-|[]]]]; vm_compute; discriminate).
  assert (F : exists c, findNext n = Some c) by (destruct HN as [<-|[<-|[<-|[]]]]; eexists; reflexivity). destruct F as (c & F).
  assert (EA : g ++ n :: a = g1 ++ n :: (g2 ++ a)) by (change (n :: a) with ([n] ++ a); rewrite app_assoc, EG, <- app_assoc; reflexivity).
  assert (E : Find (g ++ n :: a) = Find (n :: g1 ++ g2 ++ a)).
  { rewrite (find_first c n (g1 ++ g2 ++ a) F HM). unfold Find. rewrite (strip_global g G n a HM), F, EA, (minus_global g1 n (g2 ++ a) NI). reflexivity. }
  unfold command_line. now rewrite E.
Qed.
Lemma global_refuted : ~ (forall (g : list bytes) (n : bytes) (a : list bytes), global g -> In n [str "bencode"; str "download"; str "version"] -> command_line (g ++ n :: a) = command_line (n :: g ++ a)).
Proof.
  intros H. specialize (H [str "--config"; str "download"; str "--log-level"; str "debug"] (str "download") [str "-o"; str "d"; str "f"]).
  assert (G : global [str "--config"; str "download"; str "--log-level"; str "debug"]).
  { change (str "--config") with (str "--" ++ str "config"). apply gl_next; [cbn [In]; auto|]. change (str "--log-level") with (str "--" ++ str "log-level"). apply gl_next; [cbn [In]; auto|constructor]. }
  specialize (H G ltac:(cbn [In]; auto)). vm_compute in H. discriminate.
Qed.

(* ---------- the other commands ---------- *)
Lemma bencode_spec args file : command_line (str "bencode" :: args) = LBencode file <-> exists l, says false args l [file] /\ ~ asks_help l.
Proof.
  unfold command_line. rewrite (find_first SubBencode (str "bencode") args); [|reflexivity|vm_compute; discriminate].
  change (helpFlag :: rootFlags) with (table false). split.
  - destruct (parseArgs (table false) args) as [[l p]|] eqn:EP; [|discriminate]. apply parse_spec in EP.
    destruct (helped l) eqn:EH; [discriminate|]. destruct p as [|f [|? ?]]; try discriminate.
    intros H. inversion H; subst. exists l. split; [exact EP|]. intros K; apply helped_spec in K; congruence.
  - intros (l & S & NH). rewrite (proj2 (parse_spec false args l [file]) S). destruct (helped l) eqn:EH; [apply helped_spec in EH; contradiction|]. reflexivity.
Qed.
Lemma version_spec args : command_line (str "version" :: args) = LVersion <-> exists l a, says false args l a /\ ~ asks_help l.
Proof.
  unfold command_line. rewrite (find_first SubVersion (str "version") args); [|reflexivity|vm_compute; discriminate].
  change (helpFlag :: rootFlags) with (table false). split.
  - destruct (parseArgs (table false) args) as [[l p]|] eqn:EP; [|discriminate]. apply parse_spec in EP.
    destruct (helped l) eqn:EH; [discriminate|]. intros _. exists l, p. split; [exact EP|]. intros K; apply helped_spec in K; congruence.
  - intros (l & a & S & NH). rewrite (proj2 (parse_spec false args l a) S). destruct (helped l) eqn:EH; [apply helped_spec in EH; contradiction|]. reflexivity.
Qed.
