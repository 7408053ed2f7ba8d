(* Model of the memory management behind unvoiced synthesis: pffft_aligned_malloc, pffft_aligned_free, pffft_new_setup and
   pffft_destroy_setup of /repo/src/external/pffft/pffft.c, mbe_fft_plan_alloc and mbe_fft_plan_free of
   /repo/src/core/mbe_unvoiced_fft.c, mbe_get_fft_plan of /repo/src/core/mbelib.c.
   Addresses are integers, NULL is 0, a pointer takes 8 bytes and an int or float 4 (LP64).  Kept in memory are pointers only;
   every other access is a check that the bytes lie in one allocated block.  What the tables hold is in MFft, MFftSimd
   and MUnvoiced. *)
From Coq Require Import ZArith List Bool.
From Verif Require Import Res F32 Build MFft.
Import ListNotations.
Local Open Scope Z_scope.

(* allocated blocks (base, size); the pointers stored, newest first; the number of malloc calls so far *)
Record heap := mkheap { h_live : list (Z * Z); h_cells : list (Z * Z); h_calls : Z }.
(* the C library's malloc: an address or 0, from the allocated blocks, the number of the call and the size.  As any function of the
   number is allowed, so is any sequence of answers. *)
Definition allocator := list (Z * Z) -> Z -> Z -> Z.

Definition within (a n : Z) (b : Z * Z) : bool := (fst b <=? a) && (a + n <=? fst b + snd b).
Definition allocated (h : heap) (a n : Z) : bool := existsb (within a n) (h_live h).
Definition lookup (h : heap) (a : Z) : option Z := option_map snd (find (fun c => fst c =? a) (h_cells h)).

(* malloc; the block's old contents are gone *)
Definition malloc (al : allocator) (n : Z) (h : heap) : Z * heap :=
  let p := al (h_live h) (h_calls h) n in
  (p, if p =? 0 then mkheap (h_live h) (h_cells h) (h_calls h + 1)
      else mkheap ((p, n) :: h_live h) (filter (fun c => negb ((p <? fst c + 8) && (fst c <? p + n))) (h_cells h)) (h_calls h + 1)).
(* free (p): p is NULL or the address of an allocated block *)
Definition free (p : Z) (h : heap) : res heap :=
  if p =? 0 then Ok h
  else if existsb (fun b => fst b =? p) (h_live h) then Ok (mkheap (filter (fun b => negb (fst b =? p)) (h_live h)) (h_cells h) (h_calls h))
  else UB OOB.
(* access to n bytes at a *)
Definition touch (a n : Z) (h : heap) : res unit := if allocated h a n then Ok tt else UB OOB.
(* a pointer at a *)
Definition store (a v : Z) (h : heap) : res heap := _ <- touch a 8 h ;; Ok (mkheap (h_live h) ((a, v) :: h_cells h) (h_calls h)).
Definition load (a : Z) (h : heap) : res Z := _ <- touch a 8 h ;; init_val (lookup h a).

(* pffft.c:347-356 *)
Definition pffft_aligned_malloc (al : allocator) (nb_bytes : Z) (h : heap) : res (Z * heap) :=
  let '(p0, h) := malloc al (nb_bytes + 64) h in
  if p0 =? 0 then Ok (0, h)
  else let p := Z.land (p0 + 64) (Z.lnot 63) in h <- store (p - 8) p0 h ;; Ok (p, h).
(* pffft.c:358-363 *)
Definition pffft_aligned_free (p : Z) (h : heap) : res heap :=
  if p =? 0 then Ok h else p0 <- load (p - 8) h ;; free p0 h.

(* struct PFFFT_Setup (pffft.c:1349-1358): N at 0, Ncvec at 4, ifac at 8, transform at 108, data at 112, e at 120, twiddle at 128 *)
Definition sizeof_setup : Z := 136.
(* pffft.c:1419-1423 *)
Definition pffft_destroy_setup (s : Z) (h : heap) : res heap :=
  d <- load (s + 112) h ;; h <- pffft_aligned_free d h ;; free s h.
(* SIMD_SZ: 1 in the scalar build, 4 in the vector builds; sizeof (v4sf) is 4 * SIMD_SZ *)
Definition simd_sz (b : build) : Z := if lanes4 b then 4 else 1.
(* the product of the factors of N, pffft.c:1405-1408; the factors are written by rffti1_ps *)
Definition product_of_factors (n : Z) : res Z :=
  '(nf, ifac) <- decompose n (fresh 25) [4; 2; 3; 5] ;;
  for_up 0 nf (fun k m => x <- rdi ifac (2 + k) ;; Ok (m * x)) 1.
(* pffft.c:1360-1417, pffft_new_setup (N, PFFFT_REAL) for 0 < N <= 2^26 a multiple of 32.  Simplification: rffti1_ps accesses the
   array twiddle as a whole.  The result of malloc is used without a test. *)
Definition pffft_new_setup (al : allocator) (b : build) (N : Z) (h : heap) : res (Z * heap) :=
  let '(s, h) := malloc al sizeof_setup h in
  let sz := simd_sz b in
  _ <- touch s 4 h ;; _ <- touch (s + 108) 4 h ;;
  let Ncvec := N / 2 / sz in
  _ <- touch (s + 4) 4 h ;;
  '(data, h) <- pffft_aligned_malloc al (2 * Ncvec * (4 * sz)) h ;;
  h <- store (s + 112) data h ;; h <- store (s + 120) data h ;;
  let twiddle := data + (2 * Ncvec * (sz - 1)) / sz * (4 * sz) in
  h <- store (s + 128) twiddle h ;;
  _ <- for_up 0 Ncvec (fun k _ =>
    let i := k / sz in let j := k mod sz in
    for_up 0 (sz - 1) (fun m _ =>
      _ <- touch (data + 4 * ((2 * (i * 3 + m) + 0) * sz + j)) 4 h ;;
      touch (data + 4 * ((2 * (i * 3 + m) + 1) * sz + j)) 4 h) tt) tt ;;
  _ <- touch twiddle (4 * (N / sz)) h ;;
  _ <- touch (s + 8) 100 h ;;
  m <- product_of_factors (N / sz) ;;
  if m =? N / sz then Ok (s, h) else h <- pffft_destroy_setup s h ;; Ok (0, h).

(* struct mbe_fft_plan (mbe_unvoiced_fft.c:96-125): dftBinScalor at 0, a_min at 516, setup at 744, Uw at 752, Uw_fft at 760, wola_w_prev,
   wola_w_curr, wola_w_prev_sq, wola_w_curr_sq and wola_denom from 768, Uw_out at 3968, work at 3976, b_max at 3984, wola_prev_idx and
   wola_curr_idx from 4212; size 5504, a multiple of 64 *)
Definition sizeof_plan : Z := 5504.
Definition at_setup : Z := 744. Definition at_Uw : Z := 752. Definition at_Uw_fft : Z := 760. Definition at_Uw_out : Z := 3968. Definition at_work : Z := 3976.
(* if (plan->f) pffft_aligned_free (plan->f), mbe_unvoiced_fft.c:187-198 *)
Definition free_field (plan f : Z) (h : heap) : res heap :=
  p <- load (plan + f) h ;; if p =? 0 then Ok h else p <- load (plan + f) h ;; pffft_aligned_free p h.
(* mbe_unvoiced_fft.c:181-201 *)
Definition mbe_fft_plan_free (plan : Z) (h : heap) : res heap :=
  if plan =? 0 then Ok h
  else
    s <- load (plan + at_setup) h ;;
    h <- (if s =? 0 then Ok h else pffft_destroy_setup s h) ;;
    h <- free_field plan at_Uw h ;; h <- free_field plan at_Uw_fft h ;; h <- free_field plan at_Uw_out h ;; h <- free_field plan at_work h ;;
    pffft_aligned_free plan h.
(* plan->f = pffft_aligned_malloc (256 * sizeof (float)) *)
Definition alloc_field (al : allocator) (plan f : Z) (h : heap) : res heap :=
  '(p, h) <- pffft_aligned_malloc al (256 * 4) h ;; store (plan + f) p h.
(* mbe_unvoiced_fft.c:127-179 *)
Definition mbe_fft_plan_alloc (al : allocator) (b : build) (h : heap) : res (Z * heap) :=
  '(plan, h) <- pffft_aligned_malloc al sizeof_plan h ;;
  if plan =? 0 then Ok (0, h)
  else
    h <- store (plan + at_setup) 0 h ;; h <- store (plan + at_Uw) 0 h ;; h <- store (plan + at_Uw_fft) 0 h ;;
    h <- store (plan + at_Uw_out) 0 h ;; h <- store (plan + at_work) 0 h ;;
    '(s, h) <- pffft_new_setup al b 256 h ;;
    h <- store (plan + at_setup) s h ;;
    if s =? 0 then h <- pffft_aligned_free plan h ;; Ok (0, h)
    else
      h <- alloc_field al plan at_Uw h ;; h <- alloc_field al plan at_Uw_fft h ;; h <- alloc_field al plan at_Uw_out h ;; h <- alloc_field al plan at_work h ;;
      u0 <- load (plan + at_Uw) h ;; u1 <- load (plan + at_Uw_fft) h ;; u2 <- load (plan + at_Uw_out) h ;; u3 <- load (plan + at_work) h ;;
      if (u0 =? 0) || (u1 =? 0) || (u2 =? 0) || (u3 =? 0) then h <- mbe_fft_plan_free plan h ;; Ok (0, h)
      else
        _ <- for_up 0 160 (fun n _ =>
          _ <- touch (plan + 768 + 4 * n) 4 h ;; _ <- touch (plan + 768 + 640 + 4 * n) 4 h ;; _ <- touch (plan + 768 + 2 * 640 + 4 * n) 4 h ;;
          _ <- touch (plan + 768 + 3 * 640 + 4 * n) 4 h ;; _ <- touch (plan + 768 + 4 * 640 + 4 * n) 4 h ;;
          _ <- touch (plan + 4212 + 4 * n) 4 h ;; touch (plan + 4212 + 640 + 4 * n) 4 h) tt ;;
        Ok (plan, h).

(* mbelib.c:60-74, mbe_get_fft_plan: the thread's mbe_fft_plan_instance and the memory; the first component of the result is the
   instance afterwards, which is also what is returned *)
Definition mbe_get_fft_plan (al : allocator) (b : build) (instance : Z) (h : heap) : res (Z * heap) :=
  if negb (instance =? 0) then Ok (instance, h) else mbe_fft_plan_alloc al b h.
