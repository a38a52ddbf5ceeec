(** Specification vocabulary for runs of the bundles with their own flow. *)
From Verif Require Import Prelude Num M_Core M_Kernels M_Strategies M_PT M_Bundle M_Flow M_Net M_Model M_Tree M_Spline
  Spec Spec_Core Spec_Steps Spec_Kernels Spec_Train Spec_Bundle.

Section SpecRun.
Context {N : Num} {G : Rng}.

(** jnp.linalg.cholesky returns a matrix with as many rows as its argument. *)
Definition chol_shape (chol : list vec -> list vec) : Prop := forall m, length (chol m) = length m.

(** Standing conditions of a run of a bundle built with arguments [a], from [xs]: thinnings divide the numbers
    of steps, the flow batch size is positive, dimension positive, positions one per chain and of n_dims
    coordinates, and the external routines return arrays of the documented shapes. *)
Record args_ok (a : args) (chol : list vec -> list vec) (d : datad) (xs : pos_t) : Prop := mkArgsOk {
  ao_local : a_local a mod a_local_th a = 0;
  ao_global : a_global a mod a_global_th a = 0;
  ao_bs : 0 < a_nf_bs a;
  ao_dims : 0 < a_n_dims a;
  ao_chains : length xs = a_n_chains a;
  ao_pos : forall x, In x xs -> length x = a_n_dims a;
  ao_grad : grad_shape (a_logpdf a) d (a_n_dims a);
  ao_ninf : ffinite fninf = false;
  ao_normal : normal_shape;
  ao_choice : choice_law;
  ao_chol : chol_shape chol }.

(** A row x of the positions [i, s, :] of the buffer called [name], finite in all coordinates. *)
Definition recorded_row {NF : NFOps} (w : world) (name : string) (n_chains n_dims : nat) (x : vec) : Prop :=
  exists l b slots i s, buffer_named w name l b /\ ashape (b_data b) = [n_chains; slots; n_dims] /\
    i < n_chains /\ s < slots /\ x = brow b n_dims i s /\ finite_row x = true.
End SpecRun.
