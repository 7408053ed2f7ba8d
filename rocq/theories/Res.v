(* C execution model: results, undefined behaviour, loops, arrays and integer conversions.
   Nothing here models code of /repo; these are the primitives the model files use. *)
From Coq Require Import ZArith List Bool.
Import ListNotations.
Local Open Scope Z_scope.

(* Reasons for undefined behaviour. *)
Inductive ub : Set :=
| OOB        (* array index outside the array *)
| Uninit     (* read of an uninitialised object *)
| Overflow   (* signed integer overflow *)
| BadConv.   (* float-to-integer conversion out of range, or NaN *)

(* The outcome of running a piece of C: a value, or undefined behaviour. *)
Inductive res (A : Type) : Type :=
| Ok (a : A)
| UB (w : ub).
Arguments Ok {A} a.
Arguments UB {A} w.

Definition bind {A B} (m : res A) (f : A -> res B) : res B :=
  match m with Ok a => f a | UB w => UB w end.

Notation "x <- e ;; f" := (bind e (fun x => f)) (at level 61, e at next level, right associativity).
Notation "' p <- e ;; f" := (bind e (fun x => match x with p => f end))
  (at level 61, p pattern, e at next level, right associativity).

(* n iterations of body, with the loop variable starting at i and changing by step. *)
Fixpoint loop {S : Type} (n : nat) (i step : Z) (body : Z -> S -> res S) (s : S) : res S :=
  match n with
  | O => Ok s
  | Datatypes.S n' => s' <- body i s ;; loop n' (i + step) step body s'
  end.

(* for (i = lo; i < hi; i++) body *)
Definition for_up {S} (lo hi : Z) (body : Z -> S -> res S) (s : S) : res S :=
  loop (Z.to_nat (hi - lo)) lo 1 body s.

(* for (i = hi; i >= lo; i--) body *)
Definition for_down {S} (hi lo : Z) (body : Z -> S -> res S) (s : S) : res S :=
  loop (Z.to_nat (hi - lo + 1)) hi (-1) body s.

(* a[i] as an rvalue *)
Definition rd {A} (l : list A) (i : Z) : res A :=
  if i <? 0 then UB OOB
  else match nth_error l (Z.to_nat i) with Some x => Ok x | None => UB OOB end.

Fixpoint set_nth {A} (n : nat) (v : A) (l : list A) : list A :=
  match l, n with
  | [], _ => []
  | _ :: t, O => v :: t
  | x :: t, Datatypes.S n' => x :: set_nth n' v t
  end.

(* a[i] = v *)
Definition wr {A} (l : list A) (i : Z) (v : A) : res (list A) :=
  if i <? 0 then UB OOB
  else if (Z.to_nat i <? length l)%nat then Ok (set_nth (Z.to_nat i) v l) else UB OOB.

(* two-dimensional arrays *)
Definition rd2 {A} (l : list (list A)) (i j : Z) : res A := r <- rd l i ;; rd r j.
Definition wr2 {A} (l : list (list A)) (i j : Z) (v : A) : res (list (list A)) :=
  r <- rd l i ;; r' <- wr r j v ;; wr l i r'.

(* reads from arrays of possibly uninitialised cells *)
Definition init_val {A} (o : option A) : res A :=
  match o with Some v => Ok v | None => UB Uninit end.
Definition rdi {A} (l : list (option A)) (i : Z) : res A := o <- rd l i ;; init_val o.
Definition rdi2 {A} (l : list (list (option A))) (i j : Z) : res A := o <- rd2 l i j ;; init_val o.

(* an uninitialised local array of n cells *)
Definition fresh {A} (n : Z) : list (option A) := repeat None (Z.to_nat n).
Definition fresh2 {A} (n m : Z) : list (list (option A)) := repeat (fresh m) (Z.to_nat n).

(* the whole array, when every cell is initialised *)
Fixpoint all_init {A} (l : list (option A)) : res (list A) :=
  match l with
  | [] => Ok []
  | o :: t => v <- init_val o ;; t' <- all_init t ;; Ok (v :: t')
  end.

(* signed 32-bit int *)
Definition in_int (z : Z) : bool := (-2147483648 <=? z) && (z <=? 2147483647).
Definition to_int (z : Z) : res Z := if in_int z then Ok z else UB Overflow.

(* conversions: unsigned wrap; char is a signed 8-bit type (gcc on x86 and on most targets) *)
Definition to_u32 (z : Z) : Z := z mod 4294967296.
Definition to_u16 (z : Z) : Z := z mod 65536.
Definition to_char (z : Z) : Z := (z + 128) mod 256 - 128.
Definition to_i32 (z : Z) : Z := (z + 2147483648) mod 4294967296 - 2147483648.

(* strtol (s, NULL, 2) on a NUL-terminated string held in a char array: skip white space,
   optional sign, then the longest run of binary digits.  The arrays used by the library hold at
   most 23 characters, so the value always fits a long. *)
Fixpoint strtol2_digits (s : list (option Z)) (acc : Z) : res Z :=
  match s with
  | [] => UB OOB
  | None :: _ => UB Uninit
  | Some c :: t =>
      if c =? 48 then strtol2_digits t (2 * acc)
      else if c =? 49 then strtol2_digits t (2 * acc + 1)
      else Ok acc
  end.

Fixpoint strtol2 (s : list (option Z)) : res Z :=
  match s with
  | [] => UB OOB
  | None :: _ => UB Uninit
  | Some c :: t =>
      if (c =? 32) || ((9 <=? c) && (c <=? 13)) then strtol2 t
      else if c =? 45 then v <- strtol2_digits t 0 ;; Ok (- v)
      else if c =? 43 then strtol2_digits t 0
      else strtol2_digits s 0
  end.
