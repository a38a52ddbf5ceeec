(** C52: a model built with the default statistics. *)
From Coq Require Import Reals Psatz.
From Verif Require Import Prelude Num M_Core M_Kernels M_Strategies M_Flow M_FM P_Lists RNum.
Open Scope R_scope.

Lemma std_ones n : map (@fsqrt RNum) (repeat (@f1 RNum) n) = repeat 1 n.
Proof. induction n; [reflexivity|]. cbn [repeat map]. rewrite IHn. f_equal. exact sqrt_1. Qed.
Lemma sub_zeros (x : list R) : map2 fdiv (@vsub RNum x (repeat (@f0 RNum) (length x))) (repeat 1 (length x)) = x.
Proof.
  induction x as [|a x IH]; [reflexivity|]. cbn [length repeat]. unfold vsub in * . cbn [map2]. rewrite IH. f_equal.
  change ((a - 0) / 1 = a). field.
Qed.
Lemma mul_ones (x : list R) : @vadd RNum (@vmul RNum x (repeat 1 (length x))) (repeat (@f0 RNum) (length x)) = x.
Proof.
  induction x as [|a x IH]; [reflexivity|]. cbn [length repeat]. unfold vadd, vmul in * . cbn [map2]. rewrite IH. f_equal.
  change (a * 1 + 0 = a). ring.
Qed.
Lemma log_ones n : @fsum RNum (map (@fln RNum) (repeat 1 n)) = 0.
Proof.
  induction n; [reflexivity|]. cbn [repeat map]. unfold fsum in * . cbn [fold_right].
  etransitivity; [exact (f_equal2 Rplus (ln_1 : @fln RNum 1 = 0) IHn)|]. change (0 + 0 = 0). ring.
Qed.
Section New.
Context {G : @Rng RNum}.
Variables (s : @solver RNum) (sch : @scheduler RNum).
Let m := @fm_new RNum s sch.
Let d := (nt_in (sv_net s) - 1)%nat.
Lemma new_whiten (x : list R) : length x = d -> fm_whiten m x = x.
Proof. intros H. unfold fm_whiten, fm_std, m, fm_new. cbn [fm_mean fm_var]. rewrite std_ones. fold d. rewrite <- H. apply sub_zeros. Qed.
Lemma new_unwhiten (x : list R) : length x = d -> fm_unwhiten m x = x.
Proof. intros H. unfold fm_unwhiten, fm_std, m, fm_new. cbn [fm_mean fm_var]. rewrite std_ones. fold d. rewrite <- H. apply mul_ones. Qed.
Lemma new_log_prob (x : list R) : length x = d -> fm_log_prob m x = solver_log_prob s x (@frac RNum 1 10).
Proof.
  intros H. unfold fm_log_prob. rewrite (new_whiten x H). cbn [fm_solver m fm_new].
  destruct (solver_log_prob s x (@frac RNum 1 10)) as [v|]; [|reflexivity]. cbn [rbind]. f_equal.
  assert (E : @fsum RNum (map fln (fm_std m)) = 0). { unfold fm_std, m, fm_new. cbn [fm_var]. rewrite std_ones. apply log_ones. }
  rewrite E. rewrite <- (map_id v) at 2. apply map_ext. intros a. change (a + - 0 = a). ring.
Qed.
Lemma new_sample k n dt ys : solver_sample s (split k 2 1) n dt = Ok ys -> (forall y, In y ys -> length y = d) -> fm_sample m k n dt = Ok ys.
Proof.
  intros H Hy. unfold fm_sample. cbn [fm_solver m fm_new]. rewrite H. cbn [rbind]. f_equal. rewrite <- (map_id ys) at 2. apply map_ext_in.
  intros y Hin. apply new_unwhiten, Hy, Hin.
Qed.
End New.
