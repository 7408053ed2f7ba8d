(* Model of the FFT used for unvoiced speech: src/external/pffft/pffft.c, the scalar code (PFFFT_SIMD_DISABLE, SIMD_SZ 1),
   real transforms.  The arithmetic is a parameter, so that the same program can be run in single precision, over
   the reals and over terms.  Buffers are lists of possibly uninitialised cells. *)
From Coq Require Import ZArith List Bool.
From Verif Require Import Res F32 MParms.
Import ListNotations.
Local Open Scope Z_scope.

(* the operations of the float code: + - *, the conversion of an int, the constants 2.f, -sqrt(1/2) and -sqrt 2
   (pffft.c:751, 839-840), (float)((2 * M_PI) / n) (pffft.c:1239) and the float values of cos and sin (pffft.c:1256-1257) *)
Record arith (A : Type) := mkarith {
  a_add : A -> A -> A; a_sub : A -> A -> A; a_mul : A -> A -> A; a_int : Z -> A;
  a_two : A; a_mh : A; a_ms : A; a_argh : Z -> A; a_cos : A -> A; a_sin : A -> A }.
Arguments a_add {A}. Arguments a_sub {A}. Arguments a_mul {A}. Arguments a_int {A}. Arguments a_two {A}.
Arguments a_mh {A}. Arguments a_ms {A}. Arguments a_argh {A}. Arguments a_cos {A}. Arguments a_sin {A}.

(* single precision; cos and sin are the double functions followed by the conversion to float, given as functions on float *)
Definition f32_arith (cosd sind : f32 -> f32) : arith f32 :=
  mkarith f32 fadd fsub fmul f_of_Z (f_of_Z 2) (d2f (dlit (-7071067811865475) 10000000000000000)) (d2f (dlit (-1414213562373095) 1000000000000000))
    (fun n => d2f (ddiv (dmul (d_of_Z 2) M_PI) (d_of_Z n))) (fun x => f_canon (cosd x)) (fun x => f_canon (sind x)).

Definition buf (A : Type) := list (option A).
Definition put {A} (b : buf A) (i : Z) (v : A) : res (buf A) := wr b i (Some v).

Section Transform.
Context {A : Type} (ar : arith A).
Let add := a_add ar. Let sub := a_sub ar. Let mul := a_mul ar.

(* pffft.c:255-263 VCPLXMUL *)
Definition cplxmul (x y br bi : A) : A * A := (sub (mul x br) (mul y bi), add (mul y br) (mul x bi)).
(* pffft.c:264-272 VCPLXMULCONJ *)
Definition cplxmulconj (x y br bi : A) : A * A := (add (mul x br) (mul y bi), sub (mul y br) (mul x bi)).

(* pffft.c:749-835 radf4_ps; w1 w2 w3 are the positions of wa1 wa2 wa3 in the twiddle array.  The loops over k with
   step ido run l1 times, the loop over i runs (ido - 1) / 2 times. *)
Definition radf4_first (ido l1 : Z) (cc ch : buf A) : res (buf A) :=
  let l := l1 * ido in
  loop (Z.to_nat l1) 0 1 (fun q ch =>
    let c := q * ido in let h := q * (4 * ido) in
    a0 <- rdi cc c ;; a1 <- rdi cc (c + l) ;; a2 <- rdi cc (c + 2 * l) ;; a3 <- rdi cc (c + 3 * l) ;;
    let tr1 := add a1 a3 in let tr2 := add a0 a2 in
    ch <- put ch (h + (2 * ido - 1)) (sub a0 a2) ;; ch <- put ch (h + 2 * ido) (sub a3 a1) ;;
    ch <- put ch h (add tr1 tr2) ;; put ch (h + (4 * ido - 1)) (sub tr2 tr1)) ch.
Definition radf4_mid (ido l1 : Z) (cc : buf A) (wa : buf A) (w1 w2 w3 : Z) (ch : buf A) : res (buf A) :=
  let l := l1 * ido in
  loop (Z.to_nat l1) 0 ido (fun k ch =>
    loop (Z.to_nat ((ido - 1) / 2)) 2 2 (fun i ch =>
      let ic := ido - i in let pc := 1 + k + (i - 2) in
      x <- rdi cc (pc + 1 * l) ;; y <- rdi cc (pc + 1 * l + 1) ;; u <- rdi wa (w1 + (i - 2)) ;; v <- rdi wa (w1 + (i - 1)) ;;
      let '(cr2, ci2) := cplxmulconj x y u v in
      x <- rdi cc (pc + 2 * l) ;; y <- rdi cc (pc + 2 * l + 1) ;; u <- rdi wa (w2 + (i - 2)) ;; v <- rdi wa (w2 + (i - 1)) ;;
      let '(cr3, ci3) := cplxmulconj x y u v in
      x <- rdi cc (pc + 3 * l) ;; y <- rdi cc (pc + 3 * l + 1) ;; u <- rdi wa (w3 + (i - 2)) ;; v <- rdi wa (w3 + (i - 1)) ;;
      let '(cr4, ci4) := cplxmulconj x y u v in
      p0 <- rdi cc pc ;; p1 <- rdi cc (pc + 1) ;;
      let tr1 := add cr2 cr4 in let tr4 := sub cr4 cr2 in let tr2 := add p0 cr3 in let tr3 := sub p0 cr3 in
      ch <- put ch (i - 1 + 4 * k) (add tr1 tr2) ;; ch <- put ch (ic - 1 + 4 * k + 3 * ido) (sub tr2 tr1) ;;
      let ti1 := add ci2 ci4 in let ti4 := sub ci2 ci4 in
      ch <- put ch (i - 1 + 4 * k + 2 * ido) (add ti4 tr3) ;; ch <- put ch (ic - 1 + 4 * k + 1 * ido) (sub tr3 ti4) ;;
      let ti2 := add p1 ci3 in let ti3 := sub p1 ci3 in
      ch <- put ch (i + 4 * k) (add ti1 ti2) ;; ch <- put ch (ic + 4 * k + 3 * ido) (sub ti1 ti2) ;;
      ch <- put ch (i + 4 * k + 2 * ido) (add tr4 ti3) ;; put ch (ic + 4 * k + 1 * ido) (sub tr4 ti3)) ch) ch.
Definition radf4_last (ido l1 : Z) (cc ch : buf A) : res (buf A) :=
  let l := l1 * ido in
  loop (Z.to_nat l1) 0 ido (fun k ch =>
    a <- rdi cc (ido - 1 + k + l) ;; b <- rdi cc (ido - 1 + k + 3 * l) ;; c <- rdi cc (ido - 1 + k) ;; d <- rdi cc (ido - 1 + k + 2 * l) ;;
    let ti1 := mul (a_mh ar) (add a b) in let tr1 := mul (a_mh ar) (sub b a) in
    ch <- put ch (ido - 1 + 4 * k) (add tr1 c) ;; ch <- put ch (ido - 1 + 4 * k + 2 * ido) (sub c tr1) ;;
    ch <- put ch (4 * k + 1 * ido) (sub ti1 d) ;; put ch (4 * k + 3 * ido) (add ti1 d)) ch.
Definition radf4 (ido l1 : Z) (cc ch wa : buf A) (w1 w2 w3 : Z) : res (buf A) :=
  ch <- radf4_first ido l1 cc ch ;;
  if ido <? 2 then Ok ch
  else if ido =? 2 then radf4_last ido l1 cc ch
  else ch <- radf4_mid ido l1 cc wa w1 w2 w3 ch ;; if ido mod 2 =? 1 then Ok ch else radf4_last ido l1 cc ch.

(* pffft.c:837-924 radb4_ps *)
Definition radb4_first (ido l1 : Z) (cc ch : buf A) : res (buf A) :=
  let l := l1 * ido in
  loop (Z.to_nat l1) 0 1 (fun q ch =>
    let c := q * (4 * ido) in let h := q * ido in
    a <- rdi cc c ;; b <- rdi cc (c + (4 * ido - 1)) ;; e <- rdi cc (c + 2 * ido) ;; d <- rdi cc (c + (2 * ido - 1)) ;;
    let tr3 := mul (a_two ar) d in let tr2 := add a b in let tr1 := sub a b in let tr4 := mul (a_two ar) e in
    ch <- put ch (h + 0 * l) (add tr2 tr3) ;; ch <- put ch (h + 2 * l) (sub tr2 tr3) ;;
    ch <- put ch (h + 1 * l) (sub tr1 tr4) ;; put ch (h + 3 * l) (add tr1 tr4)) ch.
Definition radb4_mid (ido l1 : Z) (cc : buf A) (wa : buf A) (w1 w2 w3 : Z) (ch : buf A) : res (buf A) :=
  let l := l1 * ido in
  loop (Z.to_nat l1) 0 ido (fun k ch =>
    loop (Z.to_nat ((ido - 1) / 2)) 2 2 (fun i ch =>
      let pc := 4 * k - 1 in let ph := k + 1 + (i - 2) in
      pi <- rdi cc (pc + i) ;; p4 <- rdi cc (pc + (4 * ido - i)) ;; p2 <- rdi cc (pc + (2 * ido + i)) ;; pm <- rdi cc (pc + (2 * ido - i)) ;;
      let tr1 := sub pi p4 in let tr2 := add pi p4 in let ti4 := sub p2 pm in let tr3 := add p2 pm in
      ch <- put ch ph (add tr2 tr3) ;;
      let cr3 := sub tr2 tr3 in
      q2 <- rdi cc (pc + (2 * ido + i + 1)) ;; qm <- rdi cc (pc + (2 * ido - i + 1)) ;;
      let ti3 := sub q2 qm in let tr4 := add q2 qm in let cr2 := sub tr1 tr4 in let cr4 := add tr1 tr4 in
      qi <- rdi cc (pc + (i + 1)) ;; q4 <- rdi cc (pc + (4 * ido - i + 1)) ;;
      let ti1 := add qi q4 in let ti2 := sub qi q4 in
      ch <- put ch (ph + 1) (add ti2 ti3) ;;
      let ci3 := sub ti2 ti3 in let ci2 := add ti1 ti4 in let ci4 := sub ti1 ti4 in
      u <- rdi wa (w1 + (i - 2)) ;; v <- rdi wa (w1 + (i - 1)) ;;
      let '(cr2, ci2) := cplxmul cr2 ci2 u v in
      ch <- put ch (ph + l) cr2 ;; ch <- put ch (ph + l + 1) ci2 ;;
      u <- rdi wa (w2 + (i - 2)) ;; v <- rdi wa (w2 + (i - 1)) ;;
      let '(cr3, ci3) := cplxmul cr3 ci3 u v in
      ch <- put ch (ph + 2 * l) cr3 ;; ch <- put ch (ph + 2 * l + 1) ci3 ;;
      u <- rdi wa (w3 + (i - 2)) ;; v <- rdi wa (w3 + (i - 1)) ;;
      let '(cr4, ci4) := cplxmul cr4 ci4 u v in
      ch <- put ch (ph + 3 * l) cr4 ;; put ch (ph + 3 * l + 1) ci4) ch) ch.
Definition radb4_last (ido l1 : Z) (cc ch : buf A) : res (buf A) :=
  let l := l1 * ido in
  loop (Z.to_nat l1) 0 ido (fun k ch =>
    let i0 := 4 * k + ido in
    c <- rdi cc (i0 - 1) ;; d <- rdi cc (i0 + 2 * ido - 1) ;; a <- rdi cc (i0 + 0) ;; b <- rdi cc (i0 + 2 * ido + 0) ;;
    let tr1 := sub c d in let tr2 := add c d in let ti1 := add b a in let ti2 := sub b a in
    ch <- put ch (ido - 1 + k + 0 * l) (add tr2 tr2) ;; ch <- put ch (ido - 1 + k + 1 * l) (mul (a_ms ar) (sub ti1 tr1)) ;;
    ch <- put ch (ido - 1 + k + 2 * l) (add ti2 ti2) ;; put ch (ido - 1 + k + 3 * l) (mul (a_ms ar) (add ti1 tr1))) ch.
Definition radb4 (ido l1 : Z) (cc ch wa : buf A) (w1 w2 w3 : Z) : res (buf A) :=
  ch <- radb4_first ido l1 cc ch ;;
  if ido <? 2 then Ok ch
  else if ido =? 2 then radb4_last ido l1 cc ch
  else ch <- radb4_mid ido l1 cc wa w1 w2 w3 ch ;; if ido mod 2 =? 1 then Ok ch else radb4_last ido l1 cc ch.

(* The three buffers of a transform: input, output and scratch (simplification: three different arrays, as in
   mbe_unvoiced_fft.c:702, 748, so that pointer comparisons are comparisons of these names). *)
Inductive ptr : Set := Inp | Out | Scr.
Definition same (p q : ptr) : bool := match p, q with Inp, Inp => true | Out, Out => true | Scr, Scr => true | _, _ => false end.
Record mem := mkmem { m_inp : buf A; m_out : buf A; m_scr : buf A }.
Definition get (m : mem) (p : ptr) : buf A := match p with Inp => m_inp m | Out => m_out m | Scr => m_scr m end.
Definition set (m : mem) (p : ptr) (b : buf A) : mem :=
  match p with Inp => mkmem b (m_out m) (m_scr m) | Out => mkmem (m_inp m) b (m_scr m) | Scr => mkmem (m_inp m) (m_out m) b end.

(* pffft.c:1109-1152 rfftf1_ps.  Simplification: of the switch only case 4 is modelled; other factors (which the
   decomposition of 256 does not have) and a failed assertion are counted as undefined behaviour. *)
Definition rfftf1 (n : Z) (input work1 work2 : ptr) (wa : buf A) (ifac : list (option Z)) (m : mem) : res (ptr * mem) :=
  let out := if same input work2 then work1 else work2 in
  if same input out || same work1 work2 then UB OOB else
  nf <- rdi ifac 1 ;;
  '(_, _, from, _, m) <- for_up 1 (nf + 1) (fun k1 '(l2, iw, from, out, m) =>
    ip <- rdi ifac (nf - k1 + 2) ;;
    let l1 := l2 / ip in let ido := n / l2 in let iw := iw - (ip - 1) * ido in
    if negb (ip =? 4) then UB OOB else
    b <- radf4 ido l1 (get m from) (get m out) wa iw (iw + ido) (iw + ido + ido) ;;
    let m := set m out b in
    Ok (if same out work2 then (l1, iw, work2, work1, m) else (l1, iw, work1, work2, m))) (n, n - 1, input, out, m) ;;
  Ok (from, m).
(* pffft.c:1154-1197 rfftb1_ps, with the same simplification *)
Definition rfftb1 (n : Z) (input work1 work2 : ptr) (wa : buf A) (ifac : list (option Z)) (m : mem) : res (ptr * mem) :=
  let out := if same input work2 then work1 else work2 in
  if same input out then UB OOB else
  nf <- rdi ifac 1 ;;
  '(_, _, from, _, m) <- for_up 1 (nf + 1) (fun k1 '(l1, iw, from, out, m) =>
    ip <- rdi ifac (k1 + 1) ;;
    let l2 := ip * l1 in let ido := n / l2 in
    if negb (ip =? 4) then UB OOB else
    b <- radb4 ido l1 (get m from) (get m out) wa iw (iw + ido) (iw + ido + ido) ;;
    let m := set m out b in let iw := iw + (ip - 1) * ido in
    Ok (if same out work2 then (l2, iw, work2, work1, m) else (l2, iw, work1, work2, m))) (1, 0, input, out, m) ;;
  Ok (from, m).

(* pffft.c:1201-1231 decompose.  while (nl != 1) runs at most as often as nl has factors: fuel 32 for an int. *)
Fixpoint decompose_try (fuel : nat) (ntry nl nf : Z) (ifac : list (option Z)) : res (Z * Z * list (option Z)) :=
  match fuel with
  | O => UB OOB
  | S fuel =>
      if nl =? 1 then Ok (nl, nf, ifac) else
      let nq := nl / ntry in
      if nl - ntry * nq =? 0 then
        ifac <- wr ifac (2 + nf) (Some ntry) ;; let nf := nf + 1 in
        ifac <- (if (ntry =? 2) && negb (nf =? 1) then
                   ifac <- for_up 2 (nf + 1) (fun i ifac => let ib := nf - i + 2 in x <- rdi ifac ib ;; wr ifac (ib + 1) (Some x)) ifac ;;
                   wr ifac 2 (Some 2)
                 else Ok ifac) ;;
        decompose_try fuel ntry nq nf ifac
      else Ok (nl, nf, ifac)
  end.
Fixpoint decompose_all (ntryh : list Z) (nl nf : Z) (ifac : list (option Z)) : res (Z * list (option Z)) :=
  match ntryh with
  | [] => Ok (nf, ifac)
  | t :: ts => '(nl, nf, ifac) <- decompose_try 32 t nl nf ifac ;; decompose_all ts nl nf ifac
  end.
Definition decompose (n : Z) (ifac : list (option Z)) (ntryh : list Z) : res (Z * list (option Z)) :=
  '(nf, ifac) <- decompose_all ntryh n 0 ifac ;; ifac <- wr ifac 0 (Some n) ;; ifac <- wr ifac 1 (Some nf) ;; Ok (nf, ifac).

(* pffft.c:1233-1263 rffti1_ps *)
Definition rffti1 (n : Z) (wa : buf A) (ifac : list (option Z)) : res (buf A * list (option Z)) :=
  '(nf, ifac) <- decompose n ifac [4; 2; 3; 5] ;;
  let argh := a_argh ar n in
  '(_, _, wa) <- for_up 1 nf (fun k1 '(is, l1, wa) =>
    ip <- rdi ifac (k1 + 1) ;;
    let l2 := l1 * ip in let ido := n / l2 in
    '(is, _, wa) <- for_up 1 ip (fun j '(is, ld, wa) =>
      let ld := ld + l1 in let argld := mul (a_int ar ld) argh in
      '(_, _, wa) <- loop (Z.to_nat ((ido - 1) / 2)) 3 2 (fun ii '(i, fi, wa) =>
        let i := i + 2 in let fi := fi + 1 in
        wa <- put wa (i - 2) (a_cos ar (mul (a_int ar fi) argld)) ;;
        wa <- put wa (i - 1) (a_sin ar (mul (a_int ar fi) argld)) ;; Ok (i, fi, wa)) (is, 0, wa) ;;
      Ok (is + ido, ld, wa)) (is, 0, wa) ;;
    Ok (is, l2, wa)) (0, 1, wa) ;;
  Ok (wa, ifac).

(* pffft.c:1349-1417 PFFFT_Setup and pffft_new_setup (N, PFFFT_REAL) for N in 1..2^26; the allocations succeed (o_plan is
   the other case).  With SIMD_SZ 1 the array e is empty and twiddle is the whole of data. *)
Record setup := mksetup { s_N : Z; s_Ncvec : Z; s_ifac : list (option Z); s_twiddle : buf A }.
Definition new_setup (N : Z) : res (option setup) :=
  let Ncvec := N / 2 in
  '(wa, ifac) <- rffti1 N (fresh (2 * Ncvec)) (fresh 25) ;;
  nf <- rdi ifac 1 ;;
  m <- for_up 0 nf (fun k m => x <- rdi ifac (2 + k) ;; Ok (m * x)) 1 ;;
  Ok (if m =? N then Some (mksetup N Ncvec ifac wa) else None).

(* pffft.c:2018-2041 pffft_zreorder_nosimd, real transforms *)
Definition zreorder_fwd (N : Z) (inp out : buf A) : res (buf A) :=
  x_N <- rdi inp (N - 1) ;;
  out <- for_down (N - 1) 2 (fun k out => x <- rdi inp (k - 1) ;; put out k x) out ;;
  x <- rdi inp 0 ;; out <- put out 0 x ;; put out 1 x_N.
Definition zreorder_bwd (N : Z) (inp out : buf A) : res (buf A) :=
  x_N <- rdi inp 1 ;;
  out <- for_up 1 (N - 1) (fun k out => x <- rdi inp (k + 1) ;; put out k x) out ;;
  x <- rdi inp 0 ;; out <- put out 0 x ;; put out (N - 1) x_N.

(* pffft.c:2045-2103 pffft_transform_internal_nosimd with ordered = 1, a scratch buffer and a real transform;
   buff[0] is the output and buff[1] the scratch buffer.  The last copy is for input = output and is not modelled. *)
Definition buff (ib : bool) : ptr := if ib then Scr else Out.
Definition transform_fwd (s : setup) (m : mem) : res mem :=
  nf <- rdi (s_ifac s) 1 ;;
  let ib := xorb (Z.odd nf) true in
  '(p, m) <- rfftf1 (s_Ncvec s * 2) Inp (buff ib) (buff (negb ib)) (s_twiddle s) (s_ifac s) m ;;
  let ib := negb (same p (buff false)) in
  b <- zreorder_fwd (s_N s) (get m (buff ib)) (get m (buff (negb ib))) ;;
  let m := set m (buff (negb ib)) b in
  if same (buff (negb ib)) Out then Ok m else UB OOB.
Definition transform_bwd (s : setup) (m : mem) : res mem :=
  nf <- rdi (s_ifac s) 1 ;;
  let ib := xorb (Z.odd nf) true in
  b <- zreorder_bwd (s_N s) (get m Inp) (get m (buff (negb ib))) ;;
  let m := set m (buff (negb ib)) b in
  '(p, m) <- rfftb1 (s_Ncvec s * 2) (buff (negb ib)) (buff ib) (buff (negb ib)) (s_twiddle s) (s_ifac s) m ;;
  if same p Out then Ok m else UB OOB.

(* pffft.c:2139-2143 pffft_transform_ordered with a plan for 256 points (mbe_unvoiced_fft.c:144): the output, from any
   earlier contents of output and scratch *)
Definition fft256 (x : list A) (out scr : buf A) : res (list A) :=
  s <- new_setup 256 ;;
  match s with None => UB OOB | Some s => m <- transform_fwd s (mkmem (map Some x) out scr) ;; all_init (m_out m) end.
Definition ifft256 (x : list A) (out scr : buf A) : res (list A) :=
  s <- new_setup 256 ;;
  match s with None => UB OOB | Some s => m <- transform_bwd s (mkmem (map Some x) out scr) ;; all_init (m_out m) end.
End Transform.

(* the transforms as library functions of the speech model: the modelled code in place of the two FFT parameters *)
Definition with_pffft (cosd sind : f32 -> f32) (o : oracle) : oracle :=
  let run (t : list f32 -> buf f32 -> buf f32 -> res (list f32)) x k := match t x (fresh 256) (fresh 256) with Ok y => nth (Z.to_nat k) y fzero | UB _ => fzero end in
  mkoracle (o_cosf o) (o_sinf o) (o_exp2f o) (o_log2f o) (o_expf o) (run (fft256 (f32_arith cosd sind))) (run (ifft256 (f32_arith cosd sind))) (o_plan o) (o_simd o) (o_tones o).
