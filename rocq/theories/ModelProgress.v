(* pkg/download/manager.go 38-52, 181-192 and pkg/stats/progress_printer.go: the
   statistics of a running download and the goroutine that prints them.        *)
From Verif Require Import Base ModelBitset ModelMsg ModelTorrent ModelConn ModelPeer ModelSystem ModelFloat ModelStats.

(* manager.go:39 stats.NewStats(uint64(torrent.Length)); torrent.go:179: WritePiece
   calls AddDownload for every message.  Simplified: the printer reads between two
   messages, so it sees both operations of AddDownload or none.                *)
Definition download_stats (w : ModelSystem.world) : stats :=
  fold_left aexec (flat_map AddDownload (w_added (sh_w (wo_sh w)))) (NewStats (u64 (t_length (sh_t (wo_sh w))))).

(* manager.go:181-192 and progress_printer.go:25-38: once a second Print is called.
   The bar is what can fail; uilive and bytefmt are not modelled.              *)
Definition Print (w : ModelSystem.world) : res (list bytes * bytes) := PrintBar (download_stats w).
(* A panic of Print is a panic of its goroutine. *)
Definition printing_crashes (w : ModelSystem.world) : Prop := Print w = Panic.
