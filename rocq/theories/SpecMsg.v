(* The peer wire protocol (BEP-3), independent of the model.                  *)
From Verif Require Import Base.

(* a 32-bit number, most significant byte first *)
Definition be32 (n : Z) : bytes := [n / 2^24 mod 256; n / 2^16 mod 256; n / 2^8 mod 256; n mod 256].
Definition is_u32 (n : Z) : Prop := 0 <= n < 2 ^ 32.

(* length prefix and body *)
Definition frame (body : bytes) : bytes := be32 (zlen body) ++ body.

(* request: <len=13><id=6><index><begin><length> *)
Definition request_frame (index begin length : Z) : bytes :=
  be32 13 ++ [6] ++ be32 index ++ be32 begin ++ be32 length.

(* bit i of a bitfield payload: piece 0 is the high bit of the first byte; bits
   past the end are clear *)
Definition wire_bit (p : bytes) (i : Z) : bool := Z.testbit (nth (Z.to_nat (i / 8)) p 0) (7 - i mod 8).

(* shortest body of each type with fixed fields *)
Definition min_body (t : Z) : Z :=
  if t =? 4 then 5                         (* have: index *)
  else if t =? 6 then 13                   (* request: index begin length *)
  else if t =? 8 then 13                   (* cancel *)
  else if t =? 7 then 9                    (* piece: index begin *)
  else 1.
