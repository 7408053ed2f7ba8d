(* Model of the debug output of /repo/src/imbe/imbe7200x4400.c, /repo/src/imbe/imbe7100x4400.c, /repo/src/ambe/ambe3600x2400.c
   and /repo/src/ambe/ambe3600x2450.c.  The result is the list of the strings printed to stderr, one for each fprintf. *)
From Coq Require Import ZArith List Bool String DecimalString.
From Verif Require Import Res F32 MEcc MFrame.
Import ListNotations.
Local Open Scope string_scope.
Local Open Scope Z_scope.

(* fprintf (stderr, "%i", c) *)
Definition show (c : Z) : string := NilZero.string_of_int (Z.to_int c).
Definition print (s : string) (w : list string) : res (list string) := Ok (w ++ [s])%list.
Definition print_int (c : Z) (w : list string) : res (list string) := print (show c) w.
(* for (j = hi; j >= 0; j--) fprintf (stderr, "%i", fr[i][j]); *)
Definition print_row (fr : frame) (i hi : Z) (w : list string) : res (list string) :=
  for_down hi 0 (fun j w => c <- rd2 fr i j ;; print_int c w) w.
(* the same with a space before cell k *)
Definition print_split (fr : frame) (i hi k : Z) (w : list string) : res (list string) :=
  for_down hi 0 (fun j w => w <- (if j =? k then print " " w else Ok w) ;; c <- rd2 fr i j ;; print_int c w) w.
(* for (i = 0; i < n; i++) with a space before the cells of marks *)
Definition print_data (d : list Z) (n : Z) (marks : list Z) : res (list string) :=
  for_up 0 n (fun i w => w <- (if existsb (Z.eqb i) marks then print " " w else Ok w) ;; c <- rd d i ;; print_int c w) [].

(* imbe7200x4400.c:121-132 *)
Definition mbe_dumpImbe4400Data (imbe_d : list Z) : res (list string) := print_data imbe_d 88 [].
(* imbe7200x4400.c:138-152 *)
Definition mbe_dumpImbe7200x4400Data (imbe_d : list Z) : res (list string) := print_data imbe_d 88 [12; 24; 36; 48; 59; 70; 81].
(* imbe7200x4400.c:158-178 *)
Definition mbe_dumpImbe7200x4400Frame (imbe_fr : frame) : res (list string) :=
  w <- for_up 0 4 (fun i w => w <- print_row imbe_fr i 22 w ;; print " " w) [] ;;
  w <- for_up 4 7 (fun i w => w <- print_row imbe_fr i 14 w ;; print " " w) w ;;
  print_row imbe_fr 7 6 w.
(* imbe7100x4400.c:31-45 *)
Definition mbe_dumpImbe7100x4400Data (imbe_d : list Z) : res (list string) := print_data imbe_d 88 [7; 19; 31; 43; 54; 65].
(* imbe7100x4400.c:51-93 *)
Definition mbe_dumpImbe7100x4400Frame (imbe_fr : frame) : res (list string) :=
  w <- print_split imbe_fr 0 18 11 [] ;; w <- print " " w ;;
  w <- print_split imbe_fr 1 23 11 w ;; w <- print " " w ;;
  w <- for_up 2 4 (fun i w => w <- print_split imbe_fr i 22 10 w ;; print " " w) w ;;
  w <- for_up 4 6 (fun i w => w <- print_split imbe_fr i 14 3 w ;; print " " w) w ;;
  print_row imbe_fr 6 22 w.
(* ambe3600x2450.c:97-109, and the same code in ambe3600x2400.c:80-92 *)
Definition mbe_dumpAmbe2450Data (ambe_d : list Z) : res (list string) := w <- print_data ambe_d 49 [] ;; print " " w.
Definition mbe_dumpAmbe2400Data (ambe_d : list Z) : res (list string) := w <- print_data ambe_d 49 [] ;; print " " w.
(* ambe3600x2450.c:115-144, and the same code in ambe3600x2400.c:98-127 *)
Definition mbe_dumpAmbe3600x2450Frame (ambe_fr : frame) : res (list string) :=
  w <- print "ambe_fr c0: " [] ;; w <- print_row ambe_fr 0 23 w ;; w <- print " " w ;;
  w <- print "ambe_fr c1: " w ;; w <- print_row ambe_fr 1 22 w ;; w <- print " " w ;;
  w <- print "ambe_fr c2: " w ;; w <- print_row ambe_fr 2 10 w ;; w <- print " " w ;;
  w <- print "ambe_fr c3: " w ;; w <- print_row ambe_fr 3 13 w ;; print " " w.
Definition mbe_dumpAmbe3600x2400Frame (ambe_fr : frame) : res (list string) :=
  w <- print "ambe_fr c0: " [] ;; w <- print_row ambe_fr 0 23 w ;; w <- print " " w ;;
  w <- print "ambe_fr c1: " w ;; w <- print_row ambe_fr 1 22 w ;; w <- print " " w ;;
  w <- print "ambe_fr c2: " w ;; w <- print_row ambe_fr 2 10 w ;; w <- print " " w ;;
  w <- print "ambe_fr c3: " w ;; w <- print_row ambe_fr 3 13 w ;; print " " w.
