(** Specification vocabulary for models as trees of leaves. *)
From Coq Require Import Ascii.
From Verif Require Import Prelude Num M_Core M_Kernels M_Strategies M_Flow M_Net M_Model M_Tree.

Section SpecTree.
Context {N : Num}.

(** What a leaf is, without its value: type, and for arrays dtype and shape. *)
Definition skeleton (l : leaf) : leaf :=
  match l with
  | LArr d sh _ => LArr d sh [] | LBool _ => LBool false | LInt _ => LInt 0 | LFloat _ => LFloat f0 | LFun => LFun
  end.
(** Two models have the same structure: the same kinds of leaves in the same order. *)
Definition same_structure (a b : list leaf) : Prop := map skeleton a = map skeleton b.

(** The leaf is a floating-point array. *)
Definition float_array (l : leaf) : Prop := exists d sh v, l = LArr d sh v /\ d <> DBool.
(** b is a with other values in its floating-point arrays, and nothing else changed. *)
Definition only_floats_differ (a b : list leaf) : Prop :=
  length b = length a /\
  forall i, match lv_at a i with
            | LArr DBool _ _ | LBool _ | LInt _ | LFloat _ | LFun => lv_at b i = lv_at a i
            | LArr d sh v => exists v', lv_at b i = LArr d sh v' /\ length v' = length v
            end.

(** eqx.nn.Linear(use_bias=True) has a bias. *)
Definition bias_law {G : Rng} (li : nat -> nat -> key -> bool -> linear) : Prop :=
  forall a b k, exists v, ln_b (li a b k true) = Some v.

(** The positions of leaf i in the vector of all floating-point entries. *)
Definition leaf_range (lv : list leaf) (i : nat) (j : nat) : Prop :=
  exists j', j' < length (leaf_vals (lv_at lv i)) /\ j = length (ravel (firstn i lv)) + j'.

(** The gradient with respect to leaf i is zero, whatever the floating-point leaves (jax.lax.stop_gradient). *)
Definition stopped (lv0 : list leaf) (grad : list leaf -> list vec -> vec) (i : nat) : Prop :=
  forall lv xs j, only_floats_differ lv0 lv -> leaf_range lv i j -> nth j (grad lv xs) f0 = f0.
(** The optimiser has no momentum for leaf i. *)
Definition no_momentum (lv : list leaf) (i : nat) (s : adamw_state) : Prop :=
  forall j, leaf_range lv i j -> nth j (as_mu s) f0 = f0 /\ nth j (as_nu s) f0 = f0.
End SpecTree.

(** (m', s') comes from (m, s) by one call of train after another, on the data sets [ds], with the optimiser tx. *)
Inductive training_run {N : Num} {G : Rng} {NF : NFOps} (tx : gtx) (m : mdl) (s : optst) : list (list vec) -> mdl -> optst -> Prop :=
| run_none : training_run tx m s [] m s
| run_more ds m1 s1 k data epochs bs kf m2 s2 losses :
    training_run tx m s ds m1 s1 -> train m1 k data tx s1 epochs bs = Ok (kf, (m2, s2), losses) ->
    training_run tx m s (ds ++ [data]) m2 s2.

(** s is t with some letters, lower-case in t, written in upper case. *)
Definition letter_case (c d : ascii) : Prop := c = d \/ (65 <= nat_of_ascii c <= 90 /\ nat_of_ascii d = nat_of_ascii c + 32).
Fixpoint spelled (s t : string) : Prop :=
  match s, t with
  | EmptyString, EmptyString => True
  | String c s', String d t' => letter_case c d /\ spelled s' t'
  | _, _ => False
  end.
