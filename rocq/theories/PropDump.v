From Coq Require Import ZArith List Bool String.
From Verif Require Import Res F32 MEcc MFrame MDump SpecEcc SpecFrame SpecDump PDump.
Import ListNotations.
Local Open Scope string_scope.
Local Open Scope Z_scope.

(* C84: the debug output shows every bit of a frame and of the parameter bits, in groups, and nothing else *)
Theorem C84_data : forall d, List.length d = 88%nat ->
  prints (mbe_dumpImbe4400Data d) (digits d) /\ prints (mbe_dumpImbe7200x4400Data d) (spaced (groups7200 d)) /\ prints (mbe_dumpImbe7100x4400Data d) (spaced (groups7100 d)).
Proof. exact (fun d L => conj (dump4400_data d L) (conj (dump7200_data d L) (dump7100_data d L))). Qed.
Print Assumptions C84_data.
Theorem C84_ambe_data : forall d, List.length d = 49%nat -> prints (mbe_dumpAmbe2450Data d) (digits d ++ " ") /\ prints (mbe_dumpAmbe2400Data d) (digits d ++ " ").
Proof. exact dump3600_data. Qed.
Print Assumptions C84_ambe_data.
Theorem C84_7200 : forall fr, sized 8 23 fr -> prints (mbe_dumpImbe7200x4400Frame fr) (spaced (words7200 fr)).
Proof. exact dump7200_frame. Qed.
Print Assumptions C84_7200.
Theorem C84_7100 : forall fr, sized 7 24 fr -> prints (mbe_dumpImbe7100x4400Frame fr) (spaced (words7100 fr)).
Proof. exact dump7100_frame. Qed.
Print Assumptions C84_7100.
Theorem C84_3600 : forall fr, sized 4 24 fr -> prints (mbe_dumpAmbe3600x2450Frame fr) (labelled (words3600 fr)) /\ prints (mbe_dumpAmbe3600x2400Frame fr) (labelled (words3600 fr)).
Proof. exact dump3600_frame. Qed.
Print Assumptions C84_3600.
(* frames of bits with the same output have the same code words *)
Theorem C84_7200_bits : forall fr fr' s, imbe7200_frame fr -> imbe7200_frame fr' ->
  prints (mbe_dumpImbe7200x4400Frame fr) s -> prints (mbe_dumpImbe7200x4400Frame fr') s -> words7200 fr = words7200 fr'.
Proof. exact dump7200_inj. Qed.
Print Assumptions C84_7200_bits.
Theorem C84_7100_bits : forall fr fr' s, imbe7100_frame fr -> imbe7100_frame fr' ->
  prints (mbe_dumpImbe7100x4400Frame fr) s -> prints (mbe_dumpImbe7100x4400Frame fr') s -> words7100 fr = words7100 fr'.
Proof. exact dump7100_inj. Qed.
Print Assumptions C84_7100_bits.
Theorem C84_3600_bits : forall fr fr' s, ambe_frame fr -> ambe_frame fr' ->
  prints (mbe_dumpAmbe3600x2450Frame fr) s -> prints (mbe_dumpAmbe3600x2450Frame fr') s -> words3600 fr = words3600 fr'.
Proof. exact dump3600_inj. Qed.
Print Assumptions C84_3600_bits.
(* the same for parameter bits *)
Theorem C84_data_bits : forall f d d' s, In f [mbe_dumpImbe4400Data; mbe_dumpImbe7200x4400Data; mbe_dumpImbe7100x4400Data] -> is_bits 88 d -> is_bits 88 d' ->
  prints (f d) s -> prints (f d') s -> d = d'.
Proof. exact data_bits. Qed.
Print Assumptions C84_data_bits.
Theorem C84_ambe_data_bits : forall d d' s, is_bits 49 d -> is_bits 49 d' -> prints (mbe_dumpAmbe2450Data d) s -> prints (mbe_dumpAmbe2450Data d') s -> d = d'.
Proof. exact dump3600_data_inj. Qed.
Print Assumptions C84_ambe_data_bits.
Definition text (r : res (list string)) : string := match r with Ok w => String.concat "" w | UB _ => "undefined" end.
Definition mixed (w k : Z) : list Z := map (fun i => Z.land (i * i + k * i) 4 / 4) (map Z.of_nat (seq 0 (Z.to_nat w))).
Example C84_cases :
  text (mbe_dumpImbe7100x4400Data (mixed 88 1)) = "0011110 000111100001 111000011110 000111100001 11100001111 00001111000 01111000011110000111100" /\
  text (mbe_dumpAmbe3600x2450Frame (map (mixed 24) [0; 1; 2; 3])) =
    "ambe_fr c0: 010001000100010001000100 ambe_fr c1: 01111000011110000111100 ambe_fr c2: 00010001000 ambe_fr c3: 01001011010010 " /\
  text (mbe_dumpImbe7200x4400Frame (map (mixed 23) [0; 1; 2; 3; 4; 5; 6; -7])) =
    "10001000100010001000100 01111000011110000111100 00010001000100010001000 10100101101001011010010 110111011101110 001011010010110 010001000100010 0111100".
Proof. vm_compute. repeat split. Qed.
(* cells that are not bits print as several characters, and then the output does not determine them *)
Example C84_chars : text (mbe_dumpAmbe2450Data (1 :: 11 :: repeat 0 47)) = text (mbe_dumpAmbe2450Data (11 :: 1 :: repeat 0 47)).
Proof. vm_compute. reflexivity. Qed.
