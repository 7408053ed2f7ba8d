(* Sums in either order: a tree of additions over the terms. *)
From Coq Require Import ZArith List Bool Lia Permutation.
From Verif Require Import Res F32 Build SpecSum.
Import ListNotations.

(* s is made from the terms xs by n additions *)
Inductive summed : list f32 -> f32 -> nat -> Prop :=
| sum_nil : summed [] (S754_zero false) 0
| sum_cons : forall x xs s n, summed xs s n -> summed (x :: xs) (fadd s x) (S n)
| sum_join : forall xs s n ys t m, summed xs s n -> summed ys t m -> summed (xs ++ ys) (fadd s t) (S (n + m)).
Lemma fold_summed : forall xs ys s n, summed ys s n -> exists zs, Permutation (xs ++ ys) zs /\ summed zs (fold_left fadd xs s) (n + length xs).
Proof.
  induction xs as [|x xs IH]; intros ys s n H.
  - exists ys. split; [reflexivity|]. cbn [length fold_left]. rewrite Nat.add_0_r. exact H.
  - destruct (IH (x :: ys) (fadd s x) (S n)) as (zs & P & Q); [apply sum_cons, H|]. exists zs. split.
    + etransitivity; [|exact P]. cbn [app]. apply Permutation_middle.
    + cbn [length fold_left]. replace (n + S (length xs))%nat with (S n + length xs)%nat by lia. exact Q.
Qed.
Lemma join_summed : forall simd a b c d A B C D na nb nc nd, summed A a na -> summed B b nb -> summed C c nc -> summed D d nd ->
  exists zs, Permutation (A ++ B ++ C ++ D) zs /\ summed zs (lane_join simd a b c d) (S (S (na + nb) + S (nc + nd))).
Proof.
  intros simd a b c d A B C D na nb nc nd HA HB HC HD.
  assert (X : forall s, lane_join s a b c d = fadd (fadd a b) (fadd c d) -> exists zs, Permutation (A ++ B ++ C ++ D) zs /\ summed zs (lane_join s a b c d) (S (S (na + nb) + S (nc + nd)))).
  { intros s E. rewrite E. exists ((A ++ B) ++ (C ++ D)). split; [rewrite <- !app_assoc; reflexivity|]. apply sum_join; apply sum_join; assumption. }
  destruct simd; [apply X; reflexivity..|]. exists ((A ++ C) ++ (B ++ D)). split.
  - rewrite <- !app_assoc. apply Permutation_app_head. apply Permutation_app_swap_app.
  - cbn [lane_join]. replace (S (S (na + nb) + S (nc + nd))) with (S (S (na + nc) + S (nb + nd))) by lia. apply sum_join; apply sum_join; assumption.
Qed.
Lemma lanes_summed : forall simd k xs, (length xs <= k)%nat -> forall a b c d A B C D na nb nc nd, summed A a na -> summed B b nb -> summed C c nc -> summed D d nd ->
  exists zs n, Permutation (xs ++ A ++ B ++ C ++ D) zs /\ summed zs (lane_sum simd a b c d xs) n /\ (n <= na + nb + nc + nd + 3 + length xs)%nat.
Proof.
  intros simd. induction k as [|k IH]; intros xs HK a b c d A B C D na nb nc nd HA HB HC HD.
  - destruct xs; [|cbn in HK; lia]. cbn [lane_sum fold_left app]. destruct (join_summed simd a b c d A B C D na nb nc nd HA HB HC HD) as (zs & P & Q). exists zs, (S (S (na + nb) + S (nc + nd))). split; [exact P|]. split; [exact Q|cbn [length]; lia].
  - assert (SH : (length xs < 4)%nat -> exists zs n, Permutation (xs ++ A ++ B ++ C ++ D) zs /\ summed zs (fold_left fadd xs (lane_join simd a b c d)) n /\ (n <= na + nb + nc + nd + 3 + length xs)%nat).
    { intros _. destruct (join_summed simd a b c d A B C D na nb nc nd HA HB HC HD) as (ws & P & Q).
      destruct (fold_summed xs ws (lane_join simd a b c d) (S (S (na + nb) + S (nc + nd))) Q) as (zs & P2 & Q2).
      exists zs. eexists. split; [etransitivity; [apply Permutation_app_head, P|exact P2]|]. split; [exact Q2|lia]. }
    destruct xs as [|x1 [|x2 [|x3 [|x4 xs]]]]; cbn [lane_sum]; try (apply SH; cbn [length]; lia).
    destruct (IH xs ltac:(cbn [length] in HK; lia) (fadd a x1) (fadd b x2) (fadd c x3) (fadd d x4) (x1 :: A) (x2 :: B) (x3 :: C) (x4 :: D) (S na) (S nb) (S nc) (S nd)) as (zs & n & P & Q & N); [apply sum_cons; assumption..|].
    exists zs, n. split; [|split; [exact Q|cbn [length]; lia]]. etransitivity; [|exact P].
    clear. apply (Permutation_trans (l' := [x1; x2; x3; x4] ++ xs ++ A ++ B ++ C ++ D)); [reflexivity|].
    etransitivity; [apply Permutation_app_swap_app|]. apply Permutation_app_head. cbn [app].
    apply perm_skip. transitivity (A ++ [x2; x3; x4] ++ B ++ C ++ D); [symmetry; etransitivity; [apply Permutation_app_swap_app|reflexivity]|]. apply Permutation_app_head. cbn [app].
    apply perm_skip. transitivity (B ++ [x3; x4] ++ C ++ D); [symmetry; etransitivity; [apply Permutation_app_swap_app|reflexivity]|]. apply Permutation_app_head. cbn [app].
    apply perm_skip. transitivity (C ++ [x4] ++ D); [symmetry; etransitivity; [apply Permutation_app_swap_app|reflexivity]|]. reflexivity.
Qed.
Lemma add_all_summed : forall simd xs, exists ys n, Permutation xs ys /\ summed ys (add_all simd xs) n /\ (n <= length xs + 3)%nat.
Proof.
  intros simd xs; unfold add_all; cbv zeta. destruct (lanes4 simd).
  - destruct (lanes_summed simd (length xs) xs (le_n _) (S754_zero false) (S754_zero false) (S754_zero false) (S754_zero false) [] [] [] [] 0 0 0 0 sum_nil sum_nil sum_nil sum_nil) as (zs & n & P & Q & N).
    exists zs, n. split; [rewrite !app_nil_r in P; exact P|]. split; [exact Q|lia].
  - destruct (fold_summed xs [] (S754_zero false) 0 sum_nil) as (zs & P & Q). exists zs, (0 + length xs)%nat. split; [rewrite app_nil_r in P; exact P|]. split; [exact Q|lia].
Qed.
(* what one addition keeps, the sum keeps *)
Lemma summed_all : forall (P : f32 -> Prop), P (S754_zero false) -> (forall x y, P x -> P y -> P (fadd x y)) -> forall xs s n, summed xs s n -> Forall P xs -> P s.
Proof.
  intros P P0 PA xs s n H. induction H as [|x xs s n H IH|xs s n ys t m H1 IH1 H2 IH2]; intros F; [exact P0| |].
  - apply PA; [apply IH; now inversion F|now inversion F].
  - apply Forall_app in F as [F1 F2]. apply PA; auto.
Qed.
Lemma add_all_each : forall (P : f32 -> Prop) simd xs, P (S754_zero false) -> (forall x y, P x -> P y -> P (fadd x y)) -> Forall P xs -> P (add_all simd xs).
Proof. intros P simd xs P0 PA F. destruct (add_all_summed simd xs) as (ys & n & PE & S & _). apply (summed_all P P0 PA _ _ _ S). eapply Permutation_Forall; eauto. Qed.
(* what one term brings in, the sum has *)
Lemma summed_any : forall (P Q : f32 -> Prop), P (S754_zero false) -> (forall x y, P x -> P y -> P (fadd x y)) -> (forall x y, P x -> P y -> Q x \/ Q y -> Q (fadd x y)) ->
  forall xs s n, summed xs s n -> Forall P xs -> Exists Q xs -> Q s.
Proof.
  intros P Q P0 PA QA xs s n H. induction H as [|x xs s n H IH|xs s n ys t m H1 IH1 H2 IH2]; intros F E; [inversion E| |].
  - inversion F; subst. apply QA; [apply (summed_all P P0 PA _ _ _ H); assumption|assumption|]. inversion E; subst; [now right|left; now apply IH].
  - apply Forall_app in F as [F1 F2]. apply QA; [apply (summed_all P P0 PA _ _ _ H1 F1)|apply (summed_all P P0 PA _ _ _ H2 F2)|]. apply Exists_app in E as [E|E]; auto.
Qed.
Lemma add_all_some : forall (P Q : f32 -> Prop) simd xs, P (S754_zero false) -> (forall x y, P x -> P y -> P (fadd x y)) -> (forall x y, P x -> P y -> Q x \/ Q y -> Q (fadd x y)) ->
  Forall P xs -> Exists Q xs -> Q (add_all simd xs).
Proof.
  intros P Q simd xs P0 PA QA F E. destruct (add_all_summed simd xs) as (ys & n & PE & S & _). apply (summed_any P Q P0 PA QA _ _ _ S); [eapply Permutation_Forall; eauto|].
  apply Exists_exists in E as (x & I & H). apply Exists_exists. exists x. split; [eapply Permutation_in; eauto|exact H].
Qed.
