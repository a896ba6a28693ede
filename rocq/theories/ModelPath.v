(* path/filepath on Unix, as used by pkg/torrent/torrent.go:143,151.           *)
From Verif Require Import Base SpecPath.

Definition slash : Z := 47.
Definition dot : bytes := [46].
Definition dotdot : bytes := [46; 46].

(* components between slashes *)
Fixpoint split_on (s : bytes) (cur : bytes) : list bytes :=
  match s with
  | [] => [cur]
  | c :: s' => if c =? slash then cur :: split_on s' [] else split_on s' (cur ++ [c])
  end.
Definition split_path (s : bytes) : list bytes := split_on s [].

Fixpoint join_path (l : list bytes) : bytes :=
  match l with
  | [] => []
  | [x] => x
  | x :: l' => x ++ [slash] ++ join_path l'
  end.

Definition is_rooted (s : bytes) : bool := match s with c :: _ => c =? slash | [] => false end.

(* filepath.Clean's component loop; acc is reversed *)
Fixpoint clean_comps (rooted : bool) (acc : list bytes) (l : list bytes) : list bytes :=
  match l with
  | [] => rev acc
  | c :: l' =>
      if beq c [] || beq c dot then clean_comps rooted acc l'
      else if beq c dotdot then
        match acc with
        | top :: acc' => if beq top dotdot then clean_comps rooted (dotdot :: acc) l' else clean_comps rooted acc' l'
        | [] => if rooted then clean_comps rooted [] l' else clean_comps rooted [dotdot] l'
        end
      else clean_comps rooted (c :: acc) l'
  end.
Definition Clean (s : bytes) : bytes :=
  let body := join_path (clean_comps (is_rooted s) [] (split_path s)) in
  if is_rooted s then slash :: body else match body with [] => dot | _ => body end.

(* filepath.Join(a, b) *)
Definition Join (a b : bytes) : bytes :=
  match a with
  | [] => match b with [] => [] | _ => Clean b end
  | _ => Clean (a ++ [slash] ++ b)
  end.

(* The file the operating system opens for path s (no symbolic links, names
   compared byte for byte).                                                    *)
Definition os_place (cwd : place) (s : bytes) : place :=
  fold_left step (split_path s) (if is_rooted s then [] else cwd).
