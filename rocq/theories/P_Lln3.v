(** The law of large numbers for production loops. *)
From Coq Require Import Reals Lra Lia Permutation Classical.
From Verif Require Import Prelude Num M_Core M_Kernels M_Strategies P_Lists Spec_Kernels RNum Spec_Real Spec_Inv P_Kernels P_Real1 P_Real2 P_Inv1 P_Inv2 P_Inv3 P_Inv4 P_Inv5 Spec_Erg P_Erg1 P_Erg2 P_Erg4 Spec_Lln P_Lln1 P_Lln2.
Open Scope R_scope.

Lemma map_seq_shift {A} (h : nat -> A) a n : map h (seq a n) = map (fun s => h (a + s)%nat) (seq 0 n).
Proof. revert a. induction n as [|n IH]; intros a; [reflexivity|]. cbn [seq map]. rewrite Nat.add_0_r. f_equal. rewrite IH, <- seq_shift, map_map. apply map_ext. intros s. f_equal. lia. Qed.
Lemma total_le_len (l : list (list R)) X n h D : in_path X n l -> (forall y, In y X -> Rabs (h y) <= D) -> Rabs (total l h) <= INR n * D.
Proof. intros (L & Q) H. rewrite <- L, <- total_cst. apply total_abs. intros a Ha. auto. Qed.

Lemma pow_le1 r n : 0 <= r <= 1 -> r ^ n <= 1.
Proof. intros H. induction n as [|n IH]; cbn; [lra|]. assert (0 <= r ^ n) by (apply pow_le; lra). nra. Qed.

Section Blocks.
Context {G : @Rng RNum}.
Variables (X : list (list R)) (w : list R -> R) (chains i : nat) (s1 s2 : key -> list R -> res (list (list R * R * bool))).
Variables (n1 p1 t1 e1 n2 p2 t2 e2 : nat) (P Q : expect key -> Prop) (W : R).
Notation rho := (1 - 1 / W).
Hypothesis W1 : 1 <= W.
Hypothesis NE : X <> [].
Hypothesis WP : forall x, In x X -> 0 < w x.
Hypothesis C1 : forall E, P E -> (forall j, (j < p1)%nat -> bcon X 1 s1 (j * t1) E) /\ bcon X 1 s1 e1 E.
Hypothesis C2 : forall E, Q E -> (forall j, (j < p2)%nat -> bcon X (rho ^ (j * t2 + 1)) s2 (j * t2) E) /\ bcon X (rho ^ (e2 + 1)) s2 e2 E.
Hypothesis B1 : forall E, P E -> (forall j, (j < p1)%nat -> binv X w s1 (j * t1) E) /\ binv X w s1 e1 E.
Hypothesis B2 : forall E, Q E -> (forall j, (j < p2)%nat -> binv X w s2 (j * t2) E) /\ binv X w s2 e2 E.
Hypothesis M1 : forall E, P E -> forall x, In x X -> xmono X n1 (fun F => ex E (fun k => F (visited (s1 k x)))).
Hypothesis M2 : forall E, Q E -> forall x, In x X -> xmono X n2 (fun F => ex E (fun k => F (visited (s2 k x)))).
Hypothesis J1 : forall j, (j < p1)%nat -> (j * t1 < n1)%nat.
Hypothesis J2 : forall j, (j < p2)%nat -> (j * t2 < n2)%nat.
Hypothesis K1 : (e1 < n1)%nat.
Hypothesis K2 : (e2 < n2)%nat.
Notation crow := (crow chains i s1 s2 p1 t1 e1 p2 t2 e2).
Notation per := (p1 + p2)%nat.
Definition rows (n : nat) (k : key) (x : list R) : list (list R) := map (crow n k x) (seq 0 (n * per)).
Definition sel (p t : nat) (l : list (list R)) : list (list R) := map (fun j => nth (j * t) l []) (seq 0 p).
Lemma rows_S n k x : rows (S n) k x = sel p1 t1 (visited (r1 chains i s1 k x)) ++ sel p2 t2 (visited (r2 chains i s1 s2 e1 k x)) ++ rows n (kn k) (x2 chains i s1 s2 e1 e2 k x).
Proof.
  unfold rows, sel. replace (S n * per)%nat with (p1 + (p2 + n * per))%nat by (cbn; lia). rewrite !seq_app, !map_app. cbn [P_Inv5.crow]. f_equal; [|f_equal].
  - apply map_ext_in. intros s Hs. apply in_seq in Hs. rewrite (proj2 (Nat.ltb_lt s p1)) by lia. apply pos_outs.
  - rewrite (map_seq_shift _ (0 + p1)). apply map_ext_in. intros s Hs. apply in_seq in Hs. rewrite (proj2 (Nat.ltb_ge _ p1)), (proj2 (Nat.ltb_lt _ per)) by lia. rewrite pos_outs. f_equal. f_equal. lia.
  - rewrite (map_seq_shift _ (0 + p1 + p2)). apply map_ext_in. intros s Hs. rewrite (proj2 (Nat.ltb_ge _ p1)), (proj2 (Nat.ltb_ge _ per)) by lia. f_equal. lia.
Qed.
Lemma nth_path n l j : in_path X n l -> (j < n)%nat -> In (nth j l []) X.
Proof. intros (L & H) Hj. apply H, nth_In. now rewrite L. Qed.
Lemma sel_path n p t l : in_path X n l -> (forall j, (j < p)%nat -> (j * t < n)%nat) -> in_path X p (sel p t l).
Proof.
  intros Hl H. unfold sel. split; [now rewrite map_length, seq_length|]. intros y Hy. apply in_map_iff in Hy as (j & <- & Hj). apply in_seq in Hj. apply (nth_path n); auto. apply H. lia.
Qed.
Lemma app_path a b l l' : in_path X a l -> in_path X b l' -> in_path X (a + b) (l ++ l').
Proof. intros (L & H) (L' & H'). split; [rewrite app_length; congruence|]. intros y Hy. apply in_app_or in Hy as [Hy|Hy]; auto. Qed.

Section One.
Variables (E E0 E1 Ec E00 E01 Ed : expect key).
Hypothesis SP : splits2 E E0 E1.
Hypothesis HC : split_has E1 chains i Ec.
Hypothesis SP0 : splits2 E0 E00 E01.
Hypothesis HD : split_has E01 chains i Ed.
Hypothesis PP : P Ec.
Hypothesis QQ : Q Ed.
Definition two (A : list (list R) -> list (list R) -> R) (x : list R) : R :=
  ex Ec (fun b => (fun v1 => ex Ed (fun dd => A v1 (visited (s2 dd (nth e1 v1 []))))) (visited (s1 b x))).
Lemma two_mono A B x : In x X -> (forall v1 v2, in_path X n1 v1 -> in_path X n2 v2 -> A v1 v2 <= B v1 v2) -> two A x <= two B x.
Proof.
  intros Hx H. unfold two. apply (M1 Ec PP x Hx (fun v1 => ex Ed (fun dd => A v1 (visited (s2 dd (nth e1 v1 []))))) (fun v1 => ex Ed (fun dd => B v1 (visited (s2 dd (nth e1 v1 [])))))).
  intros v1 H1. apply (M2 Ed QQ (nth e1 v1 []) (nth_path n1 v1 e1 H1 K1) (A v1) (B v1)). intros v2 H2. now apply H.
Qed.
Lemma two_const c x : two (fun _ _ => c) x = c.
Proof. unfold two. cbv beta. rewrite ex_const. apply ex_const. Qed.
Lemma two_rows n F x : ex E (fun k => F (rows (S n) k x)) = two (fun v1 v2 => ex E00 (fun k => F ((sel p1 t1 v1 ++ sel p2 t2 v2) ++ rows n k (nth e2 v2 [])))) x.
Proof.
  rewrite (ex_ext _ E _ (fun k => F ((sel p1 t1 (visited (r1 chains i s1 k x)) ++ sel p2 t2 (visited (r2 chains i s1 s2 e1 k x))) ++ rows n (kn k) (x2 chains i s1 s2 e1 e2 k x)))) by (intros k; rewrite rows_S, app_assoc; reflexivity).
  unfold two, kn, x2, r2, x1, r1.
  set (H := fun a b => F ((sel p1 t1 (visited (s1 (split b chains i) x)) ++ sel p2 t2 (visited (s2 (split (split a 2 1) chains i) (pos e1 (s1 (split b chains i) x))))) ++
    rows n (split a 2 0) (pos e2 (s2 (split (split a 2 1) chains i) (pos e1 (s1 (split b chains i) x)))))).
  refine (eq_trans (proj1 (SP H)) _). rewrite (proj2 (SP H)). rewrite <- HC. apply ex_ext. intros b. unfold H.
  set (v1 := s1 (split b chains i) x). rewrite (pos_outs e1 v1). set (y := nth e1 (visited v1) []).
  set (H2 := fun a' b' => F ((sel p1 t1 (visited v1) ++ sel p2 t2 (visited (s2 (split b' chains i) y))) ++ rows n a' (pos e2 (s2 (split b' chains i) y)))).
  refine (eq_trans (proj1 (SP0 H2)) _). rewrite (proj2 (SP0 H2)). rewrite <- HD. apply ex_ext. intros b'. unfold H2. apply ex_ext. intros k. rewrite pos_outs. reflexivity.
Qed.
End One.

Lemma rows_mono n : forall E, loops_source chains i P Q n E -> forall x, In x X -> xmono X (n * per) (fun F => ex E (fun k => F (rows n k x))).
Proof.
  induction n as [|n IH]; intros E.
  - intros _ x Hx F H HH. unfold rows. cbn [Nat.mul seq map]. rewrite !ex_const. apply HH. split; [reflexivity|intros y []].
  - intros (E0 & E1 & Ec & E00 & E01 & Ed & SP & HC & PP & SP0 & HD & QQ & L) x Hx F H HH.
    rewrite !(two_rows E E0 E1 Ec E00 E01 Ed SP HC SP0 HD n). apply (two_mono Ec Ed PP QQ); [exact Hx|]. intros v1 v2 H1 H2.
    apply (IH E00 L (nth e2 v2 []) (nth_path n2 v2 e2 H2 K2) (fun l => F ((sel p1 t1 v1 ++ sel p2 t2 v2) ++ l)) (fun l => H ((sel p1 t1 v1 ++ sel p2 t2 v2) ++ l))).
    intros l Hl. apply HH. replace (S n * per)%nat with ((p1 + p2) + n * per)%nat by (cbn; lia). apply app_path; [|exact Hl]. apply app_path; [apply (sel_path n1)|apply (sel_path n2)]; auto.
Qed.
Lemma globals_sum n : total (seq 0 (n * per)) (fun s => rho ^ globals p1 p2 t2 e2 n s) <= INR per * W.
Proof.
  pose proof (rate_range W W1) as RR. induction n as [|n IH]; [cbn; pose proof (pos_INR per); nra|].
  cbn [Nat.mul]. rewrite seq_app, total_app. cbn [Nat.add].
  assert (A : total (seq 0 per) (fun s => rho ^ globals p1 p2 t2 e2 (S n) s) <= INR per * 1).
  { rewrite <- (seq_length per 0) at 2. rewrite <- total_cst. apply total_le. intros s _. apply pow_le1. exact RR. }
  assert (B : total (seq per (n * per)) (fun s => rho ^ globals p1 p2 t2 e2 (S n) s) <= rho * (INR per * W)).
  { rewrite <- (map_id (seq per (n * per))), (map_seq_shift (fun s => s) per), total_map.
    apply Rle_trans with (total (seq 0 (n * per)) (fun s => rho * rho ^ globals p1 p2 t2 e2 n s)).
    - apply total_le. intros s _. cbn [globals]. rewrite (proj2 (Nat.ltb_ge _ p1)), (proj2 (Nat.ltb_ge _ per)) by lia. replace (per + s - per)%nat with s by lia.
      replace (e2 + 1 + globals p1 p2 t2 e2 n s)%nat with (1 + (e2 + globals p1 p2 t2 e2 n s))%nat by lia. rewrite pow_add, pow_1. apply Rmult_le_compat_l; [lra|].
      rewrite pow_add. assert (0 <= rho ^ globals p1 p2 t2 e2 n s) by (apply pow_le; lra). assert (rho ^ e2 <= 1) by (apply pow_le1; exact RR). nra.
    - rewrite total_scal. apply Rmult_le_compat_l; [lra|exact IH]. }
  assert (WI : rho * W = W - 1) by (field; lra). pose proof (pos_INR per). nra.
Qed.
Variables (g : list R -> R) (lo hi : R).
Hypothesis RG : ranges X g lo hi.
Hypothesis M0 : target_mean X w g = 0.
Notation D := (hi - lo).
Lemma zero_in' : lo <= 0 <= hi. Proof. rewrite <- M0. apply mean_range; auto. Qed.
Lemma g_abs' y : In y X -> Rabs (g y) <= D. Proof. intros Hy. pose proof (RG y Hy). pose proof zero_in'. apply Rabs_le. lra. Qed.
Lemma rows_sum n E x : loops_source chains i P Q n E -> In x X -> Rabs (ex E (fun k => total (rows n k x) g)) <= INR per * W * D.
Proof.
  intros L Hx. pose proof zero_in' as Z. rewrite (ex_ext _ E _ (fun k => total (seq 0 (n * per)) (fun s => g (crow n k x s)))) by (intros k; apply total_map).
  rewrite (ex_total E (seq 0 (n * per)) (fun s k => g (crow n k x s))).
  apply Rle_trans with (total (seq 0 (n * per)) (fun s => rho ^ globals p1 p2 t2 e2 n s * D)).
  - apply total_abs. intros s Hs. apply in_seq in Hs.
    pose proof (converge X w NE WP _ (fun g x => ex E (fun k => g (crow n k x s))) g lo hi
      (crow_contracts X chains i s1 s2 p1 t1 e1 p2 t2 e2 P Q rho C1 C2 n E s L ltac:(lia))
      (crow_inv X w chains i s1 s2 p1 t1 e1 p2 t2 e2 P Q B1 B2 n E s g L ltac:(lia)) RG x Hx) as C. cbv beta in C. rewrite M0, Rminus_0_r in C. exact C.
  - rewrite (total_ext _ _ (fun s => D * rho ^ globals p1 p2 t2 e2 n s)) by (intros; ring). rewrite total_scal. pose proof (globals_sum n). nra.
Qed.
Lemma rows_square n : forall E x, loops_source chains i P Q n E -> In x X -> ex E (fun k => total (rows n k x) g ^ 2) <= INR n * (INR per ^ 2 * (2 * W + 1) * D ^ 2).
Proof.
  pose proof zero_in' as Z. induction n as [|n IH]; intros E x.
  - intros _ Hx. unfold rows. cbn [Nat.mul seq map]. rewrite ex_const. cbn. lra.
  - intros (E0 & E1 & Ec & E00 & E01 & Ed & SP & HC & PP & SP0 & HD & QQ & L) Hx.
    set (B := INR (S n) * (INR per ^ 2 * (2 * W + 1) * D ^ 2)).
    rewrite (two_rows E E0 E1 Ec E00 E01 Ed SP HC SP0 HD n (fun l => total l g ^ 2)). rewrite <- (two_const Ec Ed B x). apply (two_mono Ec Ed PP QQ); [exact Hx|]. intros v1 v2 H1 H2.
    pose proof (nth_path n2 v2 e2 H2 K2) as Hy. set (y := nth e2 v2 []) in * . set (A := sel p1 t1 v1 ++ sel p2 t2 v2).
    assert (PA : in_path X per A) by (apply app_path; [apply (sel_path n1)|apply (sel_path n2)]; auto).
    assert (EX : ex E00 (fun k => total (A ++ rows n k y) g ^ 2) = total A g ^ 2 + 2 * total A g * ex E00 (fun k => total (rows n k y) g) + ex E00 (fun k => total (rows n k y) g ^ 2)).
    { rewrite (ex_ext _ E00 _ (fun k => 1 * (total A g ^ 2 + 2 * total A g * total (rows n k y) g) + 1 * total (rows n k y) g ^ 2)) by (intros k; rewrite total_app; ring).
      rewrite ex_lin, ex_affine. ring. }
    rewrite EX. pose proof (IH E00 y L Hy) as V. pose proof (rows_sum n E00 y L Hy) as M. pose proof (total_le_len A X per g D PA g_abs') as TA.
    unfold B. rewrite S_INR. set (v := ex E00 (fun k => total (rows n k y) g ^ 2)) in * . set (u := ex E00 (fun k => total (rows n k y) g)) in * . set (t := total A g) in * . set (p := INR per) in * .
    assert (PP0 : 0 <= p) by apply pos_INR.
    assert (t ^ 2 <= (p * D) ^ 2) by (rewrite <- (pow2_abs t); apply pow_incr; split; [apply Rabs_pos|exact TA]).
    assert (2 * t * u <= 2 * (p * D * (p * W * D))).
    { apply Rle_trans with (2 * (Rabs t * Rabs u)); [rewrite <- Rabs_mult; pose proof (Rle_abs (t * u)); lra|].
      apply Rmult_le_compat_l; [lra|]. apply Rmult_le_compat; auto; apply Rabs_pos. }
    nra.
Qed.
End Blocks.
