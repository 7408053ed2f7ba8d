(* Specification of damage beyond the reach of the codes: the code words of a frame and the parameter bits they carry.
   Independent of the model. *)
From Coq Require Import ZArith List Bool.
From Verif Require Import SpecEcc SpecFrame.
Import ListNotations.
Local Open Scope Z_scope.

(* a code word or a run of plain bits: cells off .. off + len - 1 of a row, the errors its code corrects, and the parameter bits pos .. pos + bits - 1 *)
Record block := mkblock { b_row : nat; b_off : nat; b_len : nat; b_cap : Z; b_pos : nat; b_bits : nat }.
Definition blocks_ambe : list block := [mkblock 0 1 23 3 0 12; mkblock 1 0 23 3 12 12; mkblock 2 0 11 0 24 11; mkblock 3 0 14 0 35 14].
Definition blocks_7200 : list block :=
  [mkblock 0 0 23 3 0 12; mkblock 1 0 23 3 12 12; mkblock 2 0 23 3 24 12; mkblock 3 0 23 3 36 12;
   mkblock 4 0 15 1 48 11; mkblock 5 0 15 1 59 11; mkblock 6 0 15 1 70 11; mkblock 7 0 7 0 81 7].
Definition blocks_7100 : list block :=
  [mkblock 0 1 18 3 0 7; mkblock 1 1 23 3 7 12; mkblock 2 0 23 3 19 12; mkblock 3 0 23 3 31 12;
   mkblock 4 0 15 1 43 11; mkblock 5 0 15 1 54 11; mkblock 6 0 23 0 65 23].
(* the channel's errors in a block *)
Definition flips (sent got : list (list Z)) (b : block) : Z :=
  hdist (slice (b_off b) (b_len b) (nth (b_row b) got [])) (slice (b_off b) (b_len b) (nth (b_row b) sent [])).
Definition reachable (sent got : list (list Z)) (b : block) : Prop := flips sent got b <= b_cap b.
(* the parameter bits of a block *)
Definition part (d : list Z) (b : block) : list Z := slice (b_pos b) (b_bits b) d.
(* errors of several blocks, each counted at most up to what its code corrects *)
Definition countable (sent got : list (list Z)) (bs : list block) : Z := fold_right (fun b n => Z.min (b_cap b) (flips sent got b) + n) 0 bs.
(* the parameter bits of every reachable block, and of no other, are those sent *)
Definition saved (sent got : list (list Z)) (d d' : list Z) (bs : list block) : Prop := Forall (fun b => reachable sent got b <-> part d' b = part d b) bs.
(* row 0 has even parity *)
Definition even_row (sent : list (list Z)) : Prop := Z.odd (fold_right Z.add 0 (nth 0 sent [])) = false.
Definition row0_flips (sent got : list (list Z)) : Z := hdist (nth 0 got []) (nth 0 sent []).
