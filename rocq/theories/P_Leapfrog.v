(** Proofs of C19: the leapfrog integrator. *)
From Coq Require Import Reals Psatz.
From Coquelicot Require Import Coquelicot.
From Verif Require Import Prelude Num M_Core M_Kernels Spec_Steps Spec_Kernels P_Lists P_Kernels RNum Spec_Real P_Real1 Spec_HMC.

Section Leap.
Variables (m : list (list R)) (f : @lpdf RNum) (d : @datad RNum) (n : nat).
Hypothesis Hg : grad_shape f d n.

Notation state := (list R * list R)%type.
Definition ok (z : state) := length (fst z) = n /\ length (snd z) = n.
Definition drift (a : R) (z : state) : state := (@vadd RNum (fst z) (vscale a (kinetic_grad (snd z) m)), snd z).
Definition kick (b : R) (z : state) : state := (fst z, @vsub RNum (snd z) (vscale b (vneg (lp_grad f (fst z) d)))).
Definition cs (j : nat) : R := @fsum RNum (column m j).

Lemma kg_len (p : list R) : @length R (kinetic_grad p m) = length p.
Proof. exact (kinetic_grad_length p m). Qed.
Lemma kgR (p : list R) i : (i < length p)%nat -> @nth R i (kinetic_grad p m) 0 = nth i p 0 * cs i.
Proof. intros Hi. unfold kinetic_grad. rnorm. rewrite (nth_map_seq _ _ _ 0) by auto. reflexivity. Qed.
Lemma vneg_lenR (u : list R) : @length R (vneg u) = length u.
Proof. apply map_length. Qed.
Lemma vnegR (u : list R) i : (i < length u)%nat -> @nth R i (vneg u) 0 = - nth i u 0.
Proof. exact (mapR Ropp u i). Qed.
Lemma grad_lenR (q : list R) : length q = n -> @length R (lp_grad f q d) = n.
Proof. exact (Hg q). Qed.

Lemma drift_ok a z : ok z -> ok (drift a z).
Proof. intros [A B]. split; cbn; auto. rlen. rewrite kg_len. rlia. Qed.
Lemma kick_ok b z : ok z -> ok (kick b z).
Proof. intros [A B]. split; cbn; auto. rlen. rewrite vneg_lenR, grad_lenR; rlia. Qed.
Lemma driftR a z i : ok z -> (i < n)%nat -> nth i (fst (drift a z)) 0 = nth i (fst z) 0 + a * (nth i (snd z) 0 * cs i).
Proof.
  intros [A B] Hi. cbn [drift fst]. rewrite vaddR, vscaleR, kgR; rlen; rewrite ?kg_len; rlia || auto.
Qed.
Lemma kickR b z i : ok z -> (i < n)%nat -> nth i (snd (kick b z)) 0 = nth i (snd z) 0 + b * nth i (lp_grad f (fst z) d) 0.
Proof.
  intros [A B] Hi. cbn [kick snd]. rewrite vsubR, vscaleR, vnegR; rlen; rewrite ?vneg_lenR, ?grad_lenR; try rlia. lra.
Qed.
Lemma flip_ok z : ok z -> ok (flip z).
Proof. intros [A B]. split; cbn; rlen; auto. Qed.
Lemma state_eq (z z' : state) : ok z -> ok z' -> (forall i, (i < n)%nat -> nth i (fst z) 0 = nth i (fst z') 0) ->
  (forall i, (i < n)%nat -> nth i (snd z) 0 = nth i (snd z') 0) -> z = z'.
Proof.
  destruct z as [q p], z' as [q' p']. cbn. intros [A B] [A' B'] H1 H2.
  f_equal; apply (list_eq_nth 0); cbn in *; try rlia; intros i Hi; [apply H1|apply H2]; rlia.
Qed.
Lemma flipR z i : ok z -> (i < n)%nat -> nth i (snd (flip z)) 0 = - nth i (snd z) 0.
Proof. intros [A B] Hi. cbn. apply mapR. rlia. Qed.

Lemma drift_0 z : ok z -> drift 0 z = z.
Proof. intros H. apply state_eq; auto using drift_ok. - intros. rewrite driftR; auto. lra. Qed.

Lemma drift_rev a z : ok z -> drift a (flip (drift a z)) = flip z.
Proof.
  intros H. assert (H1 := drift_ok a z H). assert (H2 := flip_ok _ H1).
  apply state_eq; auto using flip_ok, drift_ok.
  intros i Hi. rewrite driftR, flipR by auto. cbn [flip fst]. rewrite driftR by auto. cbn [drift snd]. lra.
Qed.
Lemma kick_rev b z : ok z -> kick b (flip (kick b z)) = flip z.
Proof.
  intros H. assert (H1 := kick_ok b z H). assert (H2 := flip_ok _ H1).
  apply state_eq; auto using flip_ok, kick_ok.
  intros i Hi. rewrite kickR, !flipR, kickR by auto. cbn [flip kick fst]. lra.
Qed.
Lemma kick_kick a b z : ok z -> kick a (kick b z) = kick (b + a) z.
Proof.
  intros H. assert (H1 := kick_ok b z H). apply state_eq; auto using kick_ok.
  intros i Hi. rewrite !kickR by auto. cbn [kick fst]. lra.
Qed.

(** An operation: kick or drift; sequences of operations. *)
Inductive op := Kick (b : R) | Drift (a : R).
Definition act (o : op) := match o with Kick b => kick b | Drift a => drift a end.
Definition run (l : list op) (z : state) : state := fold_left (fun s o => act o s) l z.
Lemma act_ok o z : ok z -> ok (act o z).
Proof. destruct o; [apply kick_ok|apply drift_ok]. Qed.
Lemma act_rev o z : ok z -> act o (flip (act o z)) = flip z.
Proof. destruct o; [apply kick_rev|apply drift_rev]. Qed.
Lemma run_ok l z : ok z -> ok (run l z).
Proof. revert z; induction l as [|o l IH]; intros z H; simpl; auto. apply IH, act_ok, H. Qed.
Lemma run_app l l' z : run (l ++ l') z = run l' (run l z).
Proof. apply fold_left_app. Qed.
Lemma run_rev l z : ok z -> run (rev l) (flip (run l z)) = flip z.
Proof.
  revert z; induction l as [|o l IH]; intros z H; simpl; auto.
  rewrite run_app. change (fold_left (fun s o => act o s) l (act o z)) with (run l (act o z)).
  rewrite IH by now apply act_ok. simpl. now apply act_rev.
Qed.

Variable eps : R.
Fixpoint middle (k : nat) : list op := match k with O => [] | S k' => Drift eps :: Kick eps :: middle k' end.
Definition ops (k : nat) : list op := Kick (eps / 2) :: middle k ++ [Drift eps; Kick (eps / 2)].

Lemma middle_end k : middle k ++ [Drift eps; Kick eps] = middle (S k).
Proof. induction k as [|k IH]; [reflexivity|]. simpl. rewrite IH. reflexivity. Qed.
Lemma middle_rev k : Drift eps :: rev (middle k) = middle k ++ [Drift eps].
Proof.
  induction k as [|k IH]; [reflexivity|]. rewrite <- middle_end at 2. cbn [middle rev].
  rewrite <- !app_assoc. cbn [app]. change (Drift eps :: rev (middle k) ++ [Kick eps; Drift eps])
    with ((Drift eps :: rev (middle k)) ++ [Kick eps; Drift eps]).
  rewrite IH, <- app_assoc. reflexivity.
Qed.
Lemma ops_palindrome k : rev (ops k) = ops k.
Proof.
  unfold ops. cbn [rev]. rewrite rev_app_distr. cbn [rev app]. f_equal.
  change (Drift eps :: rev (middle k) ++ [Kick (eps / 2)]) with ((Drift eps :: rev (middle k)) ++ [Kick (eps / 2)]).
  rewrite middle_rev, <- app_assoc. reflexivity.
Qed.

Lemma leapfrog_ops h z : h_step h = eps -> ok z -> leapfrog h m f d z = run (ops (h_leap h)) z.
Proof.
  intros Hs Hz. unfold leapfrog, leapfrog_coefs, ops.
  set (g := fun s c => leapfrog_one h m f d c s).
  assert (E1 : forall a b z, g z (a, b) = kick (eps * b) (drift (eps * a) z)) by (intros; unfold g, leapfrog_one; rewrite Hs; reflexivity).
  cbn [fold_left]. rewrite E1. cbn [run fold_left act]. fold (run (middle (h_leap h) ++ [Drift eps; Kick (eps / 2)])).
  replace (eps * @f0 RNum) with 0 by (cbn; ring). replace (eps * @fhalf RNum) with (eps / 2) by (cbn; lra).
  rewrite drift_0 by auto. change (fold_left _ (middle (h_leap h) ++ [Drift eps; Kick (eps / 2)]) (kick (eps / 2) z))
    with (run (middle (h_leap h) ++ [Drift eps; Kick (eps / 2)]) (kick (eps / 2) z)).
  generalize (kick (eps / 2) z). generalize (h_leap h) as k. clear Hz z. induction k as [|k IH]; intros z.
  - cbn [repeat app fold_left]. rewrite E1. cbn [middle app run fold_left act].
    replace (eps * @f1 RNum) with eps by (cbn; ring). replace (eps * @fhalf RNum) with (eps / 2) by (cbn; lra). reflexivity.
  - cbn [repeat app fold_left middle run]. rewrite E1, IH. cbn [act].
    replace (eps * @f1 RNum) with eps by (cbn; ring). reflexivity.
Qed.

Lemma C19_rev_proof h z : h_step h = eps -> ok z ->
  leapfrog h m f d (flip (leapfrog h m f d z)) = flip z.
Proof.
  intros Hs Hz. rewrite (leapfrog_ops h z Hs Hz), leapfrog_ops by auto using flip_ok, run_ok.
  rewrite <- ops_palindrome at 1. now apply run_rev.
Qed.

(** Velocity Verlet. *)
Definition vv := verlet eps (fun q => lp_grad f q d) (fun p => kinetic_grad p m).
Lemma vv_run z : ok z -> vv z = run [Kick (eps / 2); Drift eps; Kick (eps / 2)] z.
Proof.
  intros H. pose proof H as [A B]. cbn [run fold_left act]. unfold vv, verlet.
  assert (E1 : map2 (fun p a => p + eps / 2 * a) (snd z) (lp_grad f (fst z) d) = snd (kick (eps / 2) z)).
  { apply (list_eq_nth 0). { rlen. pose proof (proj2 (kick_ok (eps/2) z H)). rewrite grad_lenR; rlia. }
    intros i Hi. revert Hi. rlen. rewrite grad_lenR by auto. intros Hi.
    rewrite kickR by (auto; rlia). rewrite map2R by (rewrite ?grad_lenR; rlia). reflexivity. }
  rewrite E1. set (z1 := kick (eps / 2) z). assert (H1 : ok z1) by now apply kick_ok.
  assert (E2 : map2 (fun q v => q + eps * v) (fst z) (kinetic_grad (snd z1) m) = fst (drift eps z1)).
  { apply (list_eq_nth 0). { rlen. rewrite kg_len. pose proof (proj1 (drift_ok eps z1 H1)). pose proof (proj2 H1). rlia. }
    intros i Hi. revert Hi. rlen. rewrite kg_len. pose proof (proj2 H1). intros Hi.
    rewrite driftR by (auto; rlia). rewrite map2R by (rewrite ?kg_len; rlia). rewrite kgR by rlia. reflexivity. }
  rewrite E2. set (z2 := drift eps z1). assert (H2 : ok z2) by now apply drift_ok.
  assert (E3 : map2 (fun p a => p + eps / 2 * a) (snd z1) (lp_grad f (fst z2) d) = snd (kick (eps / 2) z2)).
  { apply (list_eq_nth 0). { rlen. rewrite grad_lenR by apply H2. pose proof (proj2 (kick_ok (eps/2) z2 H2)). pose proof (proj2 H1). rlia. }
    intros i Hi. revert Hi. rlen. rewrite grad_lenR by apply H2. pose proof (proj2 H1). intros Hi.
    rewrite kickR by (auto; rlia). rewrite map2R by (rewrite ?grad_lenR by apply H2; rlia). reflexivity. }
  rewrite E3. reflexivity.
Qed.
Lemma C19_verlet_proof h z : h_step h = eps -> ok z -> leapfrog h m f d z = iter (S (h_leap h)) vv z.
Proof.
  intros Hs Hz. rewrite leapfrog_ops by auto. generalize (h_leap h) as k. clear Hs h. intros k. revert z Hz.
  induction k as [|k IH]; intros z Hz.
  - cbn [iter]. now rewrite vv_run.
  - change (iter (S (S k)) vv z) with (iter (S k) vv (vv z)). rewrite <- IH.
    + rewrite vv_run by auto. rewrite <- run_app. unfold ops. cbn [app middle]. cbn [run fold_left act].
      rewrite kick_kick by auto using drift_ok, kick_ok. replace (eps / 2 + eps / 2) with eps by lra. reflexivity.
    + rewrite vv_run by auto. now apply run_ok.
Qed.
End Leap.
