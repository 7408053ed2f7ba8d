(* Specification of the memory management behind unvoiced synthesis. *)
From Coq Require Import ZArith List Bool Permutation.
From Verif Require Import Res F32 Build MAlloc.
Import ListNotations.
Local Open Scope Z_scope.

(* two blocks share no byte *)
Definition apart (b c : Z * Z) : Prop := fst b + snd b <= fst c \/ fst c + snd c <= fst b.
(* what C says of malloc: NULL, or the address of a new block, aligned for every object *)
Definition sane (al : allocator) : Prop := forall live k n, 0 < n ->
  al live k n = 0 \/ (0 < al live k n /\ al live k n mod 16 = 0 /\ al live k n + n <= Z.pow 2 64 /\ forall b, In b live -> apart (al live k n, n) b).
(* what malloc answers when it is asked for blocks of these sizes in turn *)
Fixpoint answers (al : allocator) (live : list (Z * Z)) (k : Z) (sizes : list Z) : list Z :=
  match sizes with
  | [] => []
  | n :: sizes => let p := al live k n in p :: answers al (if p =? 0 then live else (p, n) :: live) (k + 1) sizes
  end.
(* the sizes a thread without a plan asks for: the plan, the transform's setup and its tables, and four sample buffers; all but the setup with 64
   bytes for alignment *)
Definition sizes : list Z := [5504 + 64; 136; 1024 + 64; 1024 + 64; 1024 + 64; 1024 + 64; 1024 + 64].
Definition answer_to (al : allocator) (h : heap) (j : nat) : Z := nth j (answers al (h_live h) (h_calls h) sizes) 0.
(* the plan itself is allocated, and then one of the two calls in pffft_new_setup fails *)
Definition starved (al : allocator) (h : heap) : Prop := answer_to al h 0 <> 0 /\ (answer_to al h 1 = 0 \/ answer_to al h 2 = 0).
(* all seven succeed *)
Definition enough (al : allocator) (h : heap) : Prop := forall j, (j < 7)%nat -> answer_to al h j <> 0.

(* a memory with the blocks f of the rest of the program, and the plan pointer of a thread.  The thread asks for its plan; the rest of
   the program allocates blocks, frees its own and stores pointers in its own. *)
Inductive reach (al : allocator) (b : build) : Z -> heap -> list (Z * Z) -> Prop :=
| start : reach al b 0 (mkheap [] [] 0) []
| asks : forall i h f i' h', reach al b i h f -> mbe_get_fft_plan al b i h = Ok (i', h') -> reach al b i' h' f
| allocates : forall i h f n p h', reach al b i h f -> 0 < n -> malloc al n h = (p, h') -> reach al b i h' (if p =? 0 then f else (p, n) :: f)
| frees : forall i h f1 p n f2 h', reach al b i h (f1 ++ (p, n) :: f2) -> free p h = Ok h' -> reach al b i h' (f1 ++ f2)
| stores : forall i h f c a v h', reach al b i h f -> In c f -> fst c <= a -> a + 8 <= fst c + snd c -> store a v h = Ok h' -> reach al b i h' f.

(* a pointer to n bytes at a multiple of 64 inside one of the blocks *)
Definition buffer (own : list (Z * Z)) (p n : Z) : Prop := p mod 64 = 0 /\ exists c, In c own /\ fst c < p /\ p + n <= fst c + snd c.

(* an allocator: the first multiple of 16 behind all blocks; call number k fails *)
Definition behind (k : Z) : allocator := fun live c n =>
  let p := 16 * (1 + fold_right Z.max 0 (map (fun b => fst b + snd b) live) / 16) in
  if (c =? k) || (Z.pow 2 64 <? p + n) then 0 else p.
