(* How the metadata of a torrent is shown, and base64.                          *)
From Verif Require Import Base ModelBencode SpecText ModelUnmarshal SpecUnmarshal ModelTorrent SpecCmd.

Definition line (d : nat) (s : bytes) : bytes := tabs d ++ s ++ [10].
(* a field on a line, or nothing if it is empty *)
Definition entry (d : nat) (name s : bytes) : list bytes := match s with [] => [] | _ => [line d (name ++ [58; 32] ++ s)] end.
(* a list over several lines, or nothing *)
Definition block (d : nat) (name : bytes) (items : list bytes) : list bytes :=
  match items with [] => [] | _ => line d (name ++ [58; 32; 91]) :: map (line (S d)) items ++ [line d [93]] end.
Fixpoint separated (sep : bytes) (l : list bytes) : bytes :=
  match l with
  | [] => []
  | s :: l' => s ++ match l' with [] => [] | _ => sep ++ separated sep l' end
  end.
Definition file_line (size : Z -> bytes) (f : tfile) : bytes :=
  str "[path: " ++ separated [47] (tf_path f) ++ str ", size: " ++ size (u64 (tf_length f)) ++ str "],".
Definition nonzero (n : Z) : bytes := if n =? 0 then [] else itoa n.
(* comment, author, date (as text) and hash (as text) beside the torrent *)
Definition page (size : Z -> bytes) (t : metainfo) (comment author date hash : bytes) : list bytes :=
  [line 0 [123]; line 1 (str "info: {")] ++
  entry 2 (str "name") (mi_name t) ++ entry 2 (str "length") (size (u64 (mi_length t))) ++ entry 2 (str "piece-length") (nonzero (mi_piece_length t)) ++
  block 2 (str "files") (map (file_line size) (mi_files t)) ++
  [line 1 [125]] ++
  entry 1 (str "comment") comment ++ entry 1 (str "created-by") author ++ entry 1 (str "creation-date") date ++ entry 1 (str "announce") (mi_announce t) ++
  block 1 (str "announce-list") (map (fun l => [91] ++ separated [32] l ++ [93]) (mi_announce_list t)) ++
  block 1 (str "url-list") (map (fun s => s ++ [44]) (mi_url_list t)) ++
  entry 1 (str "(calculated) info-hash") hash ++
  [line 0 [125]].

(* what a document says about its making *)
Definition made (m : list (bytes * ben)) (comment author : bytes) (date : Z) : Prop :=
  optional m "comment" as_text [] comment /\ optional m "created by" as_text [] author /\ optional m "creation date" as_number 0 date.

(* ---------- base64url (RFC 4648, 5): the alphabet and the decoder ---------- *)
Definition alphabet : bytes := str "ABCDEFGHIJKLMNOPQRSTUVWXYZabcdefghijklmnopqrstuvwxyz0123456789-_".
Fixpoint index_of (c : Z) (l : bytes) : option Z :=
  match l with
  | [] => None
  | x :: l' => if x =? c then Some 0 else option_map Z.succ (index_of c l')
  end.
Fixpoint all_digits (l : bytes) : option (list Z) :=
  match l with
  | [] => Some []
  | c :: l' => match index_of c alphabet, all_digits l' with Some x, Some r => Some (x :: r) | _, _ => None end
  end.
(* the number with these digits *)
Definition number (l : list Z) : Z := fold_left (fun a x => a * 64 + x) l 0.
(* four digits are three bytes; = stands for a missing byte, the bits left over are 0 *)
Definition exact_part (d : Z) (f : Z -> bytes) (n : Z) : option bytes := if n mod d =? 0 then Some (f (n / d)) else None.
Fixpoint unbase64 (t : bytes) : option bytes :=
  match t with
  | [] => Some []
  | w :: x :: y :: z :: t' =>
      if z =? 61 then
        match t' with
        | [] =>
            if y =? 61 then match all_digits [w; x] with Some l => exact_part 16 (fun n => [n]) (number l) | None => None end
            else match all_digits [w; x; y] with Some l => exact_part 4 (fun n => [n / 256; n mod 256]) (number l) | None => None end
        | _ => None
        end
      else
        match all_digits [w; x; y; z], unbase64 t' with
        | Some l, Some r => Some ([number l / 65536; number l / 256 mod 256; number l mod 256] ++ r)
        | _, _ => None
        end
  | _ => None
  end.
