(** Property C59: initial parameters of networks and the random streams they come from.  Key-stream model of
    C49: keys are paths, draws come from a tape. *)
From Coq Require Import Lia List.
From Verif Require Import Prelude Num M_Core M_Kernels M_Strategies M_Flow M_Net Spec_Kernels Spec_Keys Spec_NetKeys P_Net5.
Local Open Scope nat_scope.

(* ==================================================================================== *)
(** Every entry of hidden weight matrix i is one standard normal draw of that layer's own stream, times
    sqrt(scale / number of inputs); its bias and the whole last layer are what eqx.nn.Linear makes of their
    own keys. *)
Theorem C59_mlp_parameters : forall (N : Num) (G : Rng) (li : nat -> nat -> key -> bool -> linear), normal_shape ->
  forall shape k scale act bias m, mlp_new li shape k scale act bias = Ok m ->
  let key_of i := iter i (fun q => split q 3 0) k in
  length (ml_hidden m) = length shape - 2 /\
  (forall i a b, S (S i) < length shape -> nth_error shape i = Some a -> nth_error shape (S i) = Some b ->
   exists l, nth_error (ml_hidden m) i = Some l /\ ln_b l = ln_b (li a b (split (key_of i) 3 1) bias) /\ length (ln_w l) = b /\
   forall r c, r < b -> c < a ->
     nth c (nth r (ln_w l) []) f0 = (nth (r * a + c) (normal (split (key_of i) 3 2) (b * a)) f0 *. fsqrt (scale /. fofZ (Z.of_nat a)))%num) /\
  (forall a b, nth_error shape (length shape - 2) = Some a -> nth_error shape (length shape - 1) = Some b ->
   ml_last m = li a b (split (key_of (length shape - 2)) 2 1) bias).
Proof. exact @mlp_parameters_proof. Qed.

(** All streams of a network, of a RealNVP and of a RQSpline flow are apart from each other and below the
    constructor's key: no two parameter arrays of a model share random numbers. *)
Theorem C59_streams_apart :
  (forall h k, all_apart (mlp_streams h k) /\ forall p, In p (mlp_streams h k) -> below k p) /\
  (forall L k, all_apart (realnvp_streams L k) /\ forall p, In p (realnvp_streams L k) -> below k p) /\
  (forall L h k, all_apart (rqs_streams L h k) /\ forall p, In p (rqs_streams L h k) -> below k p).
Proof. exact streams_proof. Qed.

(** The models depend on the tape at these streams only, for every initialiser that draws below its key. *)
Theorem C59_reads : forall (N : Num) (li : tape -> nat -> nat -> path -> bool -> linear),
  (forall a b q bias, reads (below q) (fun t => li t a b q bias)) ->
  (forall shape k scale act bias,
     reads (fun p => exists q, In q (mlp_streams (length shape - 2) k) /\ below q p)
           (fun t => @mlp_new N (tape_rng t) (li t) shape k scale act bias)) /\
  (forall n L h k,
     reads (fun p => exists q, In q (realnvp_streams L k) /\ below q p)
           (fun t => @realnvp_new N (tape_rng t) (li t) n L h k)) /\
  (forall n L bins hidden lo hi k,
     reads (fun p => exists q, In q (rqs_streams L (length hidden) k) /\ below q p)
           (fun t => @rqs_new N (tape_rng t) (li t) n L bins hidden lo hi k)).
Proof. intros N li H. exact (conj (mlp_reads li H) (conj (realnvp_reads li H) (rqs_reads li H))). Qed.

(** Concrete cases. *)
Example C59_case : realnvp_streams 2 [7] =
  [[1; 1; 0; 7]; [2; 1; 0; 7]; [1; 0; 1; 0; 7]; [1; 2; 0; 7]; [2; 2; 0; 7]; [1; 0; 2; 0; 7];
   [1; 1; 1; 7]; [2; 1; 1; 7]; [1; 0; 1; 1; 7]; [1; 2; 1; 7]; [2; 2; 1; 7]; [1; 0; 2; 1; 7]]%list.
Proof. reflexivity. Qed.
Example C59_initialiser : forall (N : Num) (a b : nat) q (bias : bool),
  reads (below q) (fun t => mkLinear (map (fun _ : nat => t_normal t (0 :: q) a) (seq 0 b)) (if bias then Some (t_normal t (1 :: q) b) else None)).
Proof.
  intros N a b q bias t t' H. destruct (H (0 :: q)) as (E0 & _); [exists [0]; reflexivity|]. destruct (H (1 :: q)) as (E1 & _); [exists [1]; reflexivity|].
  rewrite E0, E1. reflexivity.
Qed.
Print Assumptions C59_mlp_parameters.
Print Assumptions C59_streams_apart.
Print Assumptions C59_reads.
