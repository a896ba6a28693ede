(* Model of github.com/bits-and-blooms/bitset as used by gotit: a bit string of
   known length.  Only the documented behaviour of the library is modelled (the
   library is a dependency, not part of /repo): callers are
   pkg/torrent/torrent.go:103-104,117,124-130,139,261 and
   pkg/util/peer_message.go:133, pkg/peer/peer.go:335,338,401.                *)
From Verif Require Import Base.

Definition bitset := list bool.

(* bitset.New(n): n clear bits *)
Definition bs_new (n : Z) : bitset := repeat false (Z.to_nat n).

(* Test(i): false beyond the length *)
Definition bs_test (b : bitset) (i : Z) : bool :=
  match nthZ b i with Some x => x | None => false end.

Fixpoint set_nth (b : bitset) (n : nat) : bitset :=
  match b, n with
  | [], O => [true]
  | [], S n' => false :: set_nth [] n'
  | _ :: b', O => true :: b'
  | x :: b', S n' => x :: set_nth b' n'
  end.
(* Set(i): extends the set to length i+1 when i is beyond it *)
Definition bs_set (b : bitset) (i : Z) : bitset := set_nth b (Z.to_nat i).

(* NextClear(i): least clear index >= i and < length *)
Fixpoint first_clear (b : bitset) (pos : Z) : option Z :=
  match b with
  | [] => None
  | x :: b' => if x then first_clear b' (pos + 1) else Some pos
  end.
Definition bs_next_clear (b : bitset) (i : Z) : option Z := first_clear (skipn (Z.to_nat i) b) i.

(* Count(), Len(), All() *)
Definition bs_len (b : bitset) : Z := zlen b.
Definition bs_count (b : bitset) : Z := zlen (filter (fun x => x) b).
Definition bs_all (b : bitset) : bool := bs_count b =? bs_len b.

(* bitset.From(words): bit 64*w+k is bit k (least significant first) of word w *)
Definition word_bits (w : Z) : bitset := map (fun k => Z.testbit w (Z.of_nat k)) (seq 0 64).
Definition bs_from (ws : list Z) : bitset := flat_map word_bits ws.

(* Bytes(): the words, ceil(length/64) of them *)
Fixpoint bits_val (l : bitset) : Z := match l with [] => 0 | x :: r => Z.b2z x + 2 * bits_val r end.
Fixpoint words_n (n : nat) (b : bitset) : list Z :=
  match n with O => [] | S n' => bits_val (firstn 64 b) :: words_n n' (skipn 64 b) end.
Definition bs_words (b : bitset) : list Z := words_n (Z.to_nat ((bs_len b + 63) / 64)) b.
