(* Specification of the debug output: which bits of a frame are printed, in which groups. *)
From Coq Require Import ZArith List Bool String DecimalString.
From Verif Require Import Res F32 SpecFrame.
Import ListNotations.
Local Open Scope Z_scope.
Local Open Scope string_scope.

(* a cell in decimal, and cells one after the other *)
Definition decimal (c : Z) : string := NilZero.string_of_int (Z.to_int c).
Definition digits (l : list Z) : string := String.concat "" (map decimal l).
(* cells n - 1 .. lo of a row *)
Definition top (lo n : nat) (r : list Z) : list Z := rev (skipn lo (firstn n r)).

(* the groups of the parameter bits: 12 12 12 12 11 11 11 7 and 7 12 12 12 11 11 23 *)
Definition groups7200 (d : list Z) : list (list Z) :=
  [slice 0 12 d; slice 12 12 d; slice 24 12 d; slice 36 12 d; slice 48 11 d; slice 59 11 d; slice 70 11 d; slice 81 7 d].
Definition groups7100 (d : list Z) : list (list Z) :=
  [slice 0 7 d; slice 7 12 d; slice 19 12 d; slice 31 12 d; slice 43 11 d; slice 54 11 d; slice 65 23 d].
(* the code words of a frame, highest bit first; in the 7100 frame split into data and check bits *)
Definition words7200 (fr : list (list Z)) : list (list Z) :=
  map (fun '(i, n) => top 0 n (nth i fr [])) [(0, 23); (1, 23); (2, 23); (3, 23); (4, 15); (5, 15); (6, 15); (7, 7)]%nat.
Definition words7100 (fr : list (list Z)) : list (list Z) :=
  map (fun '(i, lo, n) => top lo n (nth i fr []))
    [(0, 12, 19); (0, 0, 12); (1, 12, 24); (1, 0, 12); (2, 11, 23); (2, 0, 11); (3, 11, 23); (3, 0, 11);
     (4, 4, 15); (4, 0, 4); (5, 4, 15); (5, 0, 4); (6, 0, 23)]%nat.
Definition words3600 (fr : list (list Z)) : list (list Z) :=
  map (fun '(i, n) => top 0 n (nth i fr [])) [(0, 24); (1, 23); (2, 11); (3, 14)]%nat.

(* the output, given the strings printed one after the other *)
Definition spaced (g : list (list Z)) : string := String.concat " " (map digits g).
Definition labelled (g : list (list Z)) : string :=
  String.concat "" (map (fun '(l, w) => l ++ digits w ++ " ") (combine ["ambe_fr c0: "; "ambe_fr c1: "; "ambe_fr c2: "; "ambe_fr c3: "] g)).
Definition prints (r : res (list string)) (s : string) : Prop := exists w, r = Ok w /\ String.concat "" w = s.

(* sizes of the arrays; any chars *)
Definition sized (n m : nat) (fr : list (list Z)) : Prop := List.length fr = n /\ Forall (fun r => List.length r = m) fr.
