(* SHA-1 (FIPS 180-4).  The theorems hold for every hash function; this one is for
   the tests and examples that need the real one.                              *)
From Verif Require Import Base.

Definition w32 (x : Z) : Z := Z.land x 4294967295.
Definition rotl (n x : Z) : Z := Z.lor (w32 (Z.shiftl x n)) (Z.shiftr x (32 - n)).
Definition not32 (x : Z) : Z := Z.lxor x 4294967295.

(* 5.1.1: a one bit, zeros, the length in bits *)
Definition padded (m : bytes) : bytes :=
  m ++ [128] ++ repeat 0 (Z.to_nat ((55 - zlen m) mod 64)) ++ be_put 8 (8 * zlen m).
Fixpoint words_of (m : bytes) : list Z :=
  match m with
  | a :: b :: c :: d :: r => be_get [a; b; c; d] :: words_of r
  | _ => []
  end.

(* 4.1.1, 4.2.1 *)
Definition f_t (t : nat) (x y z : Z) : Z :=
  if (t <? 20)%nat then Z.lxor (Z.land x y) (Z.land (not32 x) z)
  else if (t <? 40)%nat then Z.lxor (Z.lxor x y) z
  else if (t <? 60)%nat then Z.lxor (Z.lxor (Z.land x y) (Z.land x z)) (Z.land y z)
  else Z.lxor (Z.lxor x y) z.
Definition k_t (t : nat) : Z :=
  if (t <? 20)%nat then 1518500249 else if (t <? 40)%nat then 1859775393 else if (t <? 60)%nat then 2400959708 else 3395469782.

(* 6.1.2: the message schedule as a window of the last sixteen words, the oldest first *)
Definition next_word (w : list Z) : Z :=
  rotl 1 (Z.lxor (Z.lxor (nth 13 w 0) (nth 8 w 0)) (Z.lxor (nth 2 w 0) (nth 0 w 0))).
Definition hstate : Type := Z * Z * Z * Z * Z.
Fixpoint rounds (n t : nat) (w : list Z) (s : hstate) : hstate :=
  match n with
  | O => s
  | S n' =>
      let '(a, b, c, d, e) := s in
      let x := w32 (rotl 5 a + f_t t b c d + e + k_t t + nth 0 w 0) in
      rounds n' (S t) (tl w ++ [next_word w]) (x, a, rotl 30 b, c, d)
  end.
Definition block (w : list Z) (s : hstate) : hstate :=
  let '(a, b, c, d, e) := s in
  let '(a', b', c', d', e') := rounds 80 0 w s in
  (w32 (a + a'), w32 (b + b'), w32 (c + c'), w32 (d + d'), w32 (e + e')).
Fixpoint blocks (n : nat) (ws : list Z) (s : hstate) : hstate :=
  match n with
  | O => s
  | S n' => blocks n' (skipn 16 ws) (block (firstn 16 ws) s)
  end.
(* 5.3.1 *)
Definition h0 : hstate := (1732584193, 4023233417, 2562383102, 271733878, 3285377520).
Definition sha1 (m : bytes) : bytes :=
  let ws := words_of (padded m) in
  let '(a, b, c, d, e) := blocks (length ws / 16) ws h0 in
  be_put 4 a ++ be_put 4 b ++ be_put 4 c ++ be_put 4 d ++ be_put 4 e.

Lemma sha1_len m : zlen (sha1 m) = 20.
Proof.
  unfold sha1. destruct (blocks _ _ _) as [[[[a b] c] d] e]. reflexivity.
Qed.

(* FIPS 180 examples, and RFC 3174 *)
Definition hex (l : bytes) : bytes := flat_map (fun b => let d n := if n <? 10 then 48 + n else 87 + n in [d (b / 16); d (b mod 16)]) l.
Example sha1_abc : hex (sha1 (str "abc")) = str "a9993e364706816aba3e25717850c26c9cd0d89d".
Proof. vm_compute. reflexivity. Qed.
Example sha1_empty : hex (sha1 []) = str "da39a3ee5e6b4b0d3255bfef95601890afd80709".
Proof. vm_compute. reflexivity. Qed.
Example sha1_two_blocks : hex (sha1 (str "abcdbcdecdefdefgefghfghighijhijkijkljklmklmnlmnomnopnopq")) = str "84983e441c3bd26ebaae4aa1f95129e5e54670f1".
Proof. vm_compute. reflexivity. Qed.
