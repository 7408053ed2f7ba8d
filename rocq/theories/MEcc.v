(* Model of /repo/src/ecc/ecc.c: Golay (23,12) and Hamming (15,11) decoding. *)
From Coq Require Import ZArith List Bool.
From Verif Require Import Res TabEcc TabEccLut.
Import ListNotations.
Local Open Scope Z_scope.

(* ecc.c:40-65, mbe_checkGolayBlock.  The argument is the long behind the pointer, the result is
   the long stored back.  int and uint32_t have 32 bits. *)
Definition mbe_checkGolayBlock (block : Z) : res Z :=
  let block_u := to_u32 block in
  '(eccexpected, mask) <-
    for_up 0 12 (fun i '(ecc, mask) =>
      g <- rd golayGenerator i ;;
      Ok ((if negb (Z.land block_u mask =? 0) then Z.lxor ecc g else ecc), Z.shiftr mask 1))
      (0, 0x400000) ;;
  let eccbits := Z.land block_u 0x7ff in
  let syndrome := Z.lxor eccexpected eccbits in
  let databits := Z.shiftr block_u 11 in
  g <- rd golayMatrix syndrome ;;
  Ok (Z.lxor databits g).

(* block <<= 1; block |= (in[i] & 1)  for i = n-1 .. 0 (ecc.c:79-82, 119-122, 161-164) *)
Definition pack_bits (n : Z) (inp : list Z) : res Z :=
  for_down (n - 1) 0 (fun i block =>
    c <- rd inp i ;;
    Ok (Z.lor (to_u32 (Z.shiftl block 1)) (Z.land c 1))) 0.

(* ecc.c:73-103, mbe_golay2312: returns the out array and the error count. *)
Definition mbe_golay2312 (inp : list Z) : res (list Z * Z) :=
  block <- pack_bits 23 inp ;;
  tmp <- mbe_checkGolayBlock block ;;
  let block := to_u32 tmp in
  (* for (i = 22; i >= 11; i--) { out[i] = (block & 2048) >> 11; block <<= 1; } *)
  '(out, _) <- for_down 22 11 (fun i '(out, block) =>
      out' <- wr out i (Some (to_char (Z.shiftr (Z.land block 2048) 11))) ;;
      Ok (out', to_u32 (Z.shiftl block 1))) (fresh 23, block) ;;
  (* for (i = 10; i >= 0; i--) out[i] = in[i]; *)
  out <- for_down 10 0 (fun i out => c <- rd inp i ;; wr out i (Some c)) out ;;
  (* for (i = 22; i >= 11; i--) if (out[i] != in[i]) errs++; *)
  errs <- for_down 22 11 (fun i errs =>
      o <- rdi out i ;; c <- rd inp i ;;
      Ok (if negb (o =? c) then errs + 1 else errs)) 0 ;;
  out <- all_init out ;;
  Ok (out, errs).

(* The four syndrome bits of ecc.c:124-133 / 166-175: parity of block & generator[i]. *)
Definition ham_syndrome (gen : list Z) (block : Z) : res Z :=
  for_up 0 4 (fun i syndrome =>
    g <- rd gen i ;;
    let stmp := Z.land block g in
    '(_, stmp2) <- for_up 0 14 (fun _ '(stmp, stmp2) =>
        let stmp := Z.shiftr stmp 1 in
        Ok (stmp, Z.lxor stmp2 (Z.land stmp 1))) (stmp, Z.land stmp 1) ;;
    Ok (Z.lor syndrome (Z.shiftl stmp2 i))) 0.

(* Common body of mbe_hamming1511 and mbe_7100x4400hamming1511, which are textually identical
   except for the generator and the correction table. *)
Definition hamming1511_with (gen lut inp : list Z) : res (list Z * Z) :=
  block <- pack_bits 15 inp ;;
  syndrome <- ham_syndrome gen block ;;
  '(block, errs) <-
    (if 0 <? syndrome then m <- rd lut syndrome ;; Ok (Z.lxor block m, 1) else Ok (block, 0)) ;;
  '(out, _) <- for_down 14 0 (fun i '(out, block) =>
      out' <- wr out i (Some (to_char (Z.shiftr (Z.land block 0x4000) 14))) ;;
      Ok (out', to_u32 (Z.shiftl block 1))) (fresh 15, block) ;;
  out <- all_init out ;;
  Ok (out, errs).

(* ecc.c:112-145, mbe_hamming1511 *)
Definition mbe_hamming1511 (inp : list Z) : res (list Z * Z) :=
  hamming1511_with hammingGenerator ham1511_lut inp.

(* ecc.c:154-187, mbe_7100x4400hamming1511 *)
Definition mbe_7100x4400hamming1511 (inp : list Z) : res (list Z * Z) :=
  hamming1511_with imbe7100x4400hammingGenerator ham1511_7100_lut inp.
