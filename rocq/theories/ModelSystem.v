(* pkg/download/manager.go: the goroutines of one download put together.        *)
From Verif Require Import Base ModelBitset ModelMsg ModelTorrent ModelConn ModelPeer.

(* manager.go:54-68, the goroutine executing Download from line 64 on *)
Inductive mpc :=
| MWait                         (* 64: m.wg.Wait() *)
| MCtx                          (* 65: <-ctx.Done() *)
| MClose                        (* 66 *)
| MRet.                         (* 67 *)

(* wo_taken: the messages the writer is done with, the oldest first; wo_hand: the one
   it has received and not written yet (torrent.go:177-192)                    *)
Record world := mkWorld {
  wo_sh : shared;
  wo_peers : list rstate;
  wo_main : mpc;
  wo_taken : list msg;
  wo_hand : option msg
}.

Definition held (w : world) : list msg := match wo_hand w with Some m => [m] | None => [] end.

(* Start of Download: no peers, an empty channel. *)
Definition start (w : wstate) : world := mkWorld (mkSh w (fun _ => NewPiecesQueue) [] false false) [] MWait [] None.

(* manager.go:112,174-178: peer.NewPeer and, after a successful announce,
   wg.Add(1) and go peer.Run(ctx).  interested is false in the code; the theorems
   also speak of a variant in which ClientStatus.Interested starts as true.     *)
Definition fresh (interested : bool) (t : torrent) (g : nat) : rstate :=
  let p := NewPeer t in
  mkR PTop (set_client p (mkStatus (s_choked (cl_status p)) interested (s_valid (cl_status p)))) None false g.

(* peers that have not returned from Run: the WaitGroup counter *)
Definition live (r : rstate) : bool := match r_pc r with PRet => false | _ => true end.
Definition wg (w : world) : Z := zlen (filter live (wo_peers w)).

Definition panicked (r : rstate) : bool := match r_pc r with PPanic => true | _ => false end.
(* a panic in any goroutine ends the process *)
Definition crashed (w : world) : bool := existsb panicked (wo_peers w) || w_panic (sh_w (wo_sh w)).

(* Who moves. *)
Inductive action :=
| ASpawn (interested : bool) (g : nat)    (* runTracker: a new peer of round g *)
| APeer (k : nat) (i : inp)               (* peer k makes a step *)
| AWriter                                 (* WritePiece takes a message, or writes it *)
| ACancel                                 (* the context is cancelled *)
| AMain.                                  (* Download makes a step *)

Fixpoint upd {A} (l : list A) (k : nat) (x : A) : list A :=
  match l, k with
  | [], _ => []
  | _ :: l', O => x :: l'
  | y :: l', S k' => y :: upd l' k' x
  end.

(* one action; a blocked or impossible one changes nothing.  Events carry the
   number of the peer that caused them.                                        *)
Definition exec (sha1 : bytes -> bytes) (a : action) (w : world) : world * list (nat * event) :=
  let s := wo_sh w in
  if crashed w then (w, [])
  else
    match a with
    | ASpawn b g => (mkWorld s (wo_peers w ++ [fresh b (sh_t s) g]) (wo_main w) (wo_taken w) (wo_hand w), [])
    | APeer k i =>
        match nth_error (wo_peers w) k with
        | Some r =>
            match pstep sha1 i s r with
            | Some (s', r', es) => (mkWorld s' (upd (wo_peers w) k r') (wo_main w) (wo_taken w) (wo_hand w), map (pair k) es)
            | None => (w, [])
            end
        | None => (w, [])
        end
    | AWriter =>
        match wo_hand w, sh_ch s with
        | Some m, _ => (mkWorld (mkSh (write_one (sh_w s) m) (sh_q s) (sh_ch s) (sh_closed s) (sh_cancel s)) (wo_peers w) (wo_main w) (wo_taken w ++ [m]) None, [])
        | None, m :: ch => (mkWorld (set_ch s ch) (wo_peers w) (wo_main w) (wo_taken w) (Some m), [])
        | None, [] => (w, [])
        end
    | ACancel => (mkWorld (mkSh (sh_w s) (sh_q s) (sh_ch s) (sh_closed s) true) (wo_peers w) (wo_main w) (wo_taken w) (wo_hand w), [])
    | AMain =>
        match wo_main w with
        | MWait => if wg w =? 0 then (mkWorld s (wo_peers w) MCtx (wo_taken w) (wo_hand w), []) else (w, [])
        | MCtx => if sh_cancel s then (mkWorld s (wo_peers w) MClose (wo_taken w) (wo_hand w), []) else (w, [])
        | MClose => (mkWorld (mkSh (sh_w s) (sh_q s) (sh_ch s) true (sh_cancel s)) (wo_peers w) MRet (wo_taken w) (wo_hand w), [])
        | MRet => (w, [])
        end
    end.

Fixpoint run (sha1 : bytes -> bytes) (l : list action) (w : world) : world * list (nat * event) :=
  match l with
  | [] => (w, [])
  | a :: l' =>
      let '(w1, e1) := exec sha1 a w in
      let '(w2, e2) := run sha1 l' w1 in
      (w2, e1 ++ e2)
  end.

(* the events of one peer *)
Definition events_of (k : nat) (tr : list (nat * event)) : list event :=
  map snd (filter (fun e => Nat.eqb (fst e) k) tr).
