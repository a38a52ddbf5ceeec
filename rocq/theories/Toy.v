(** A computable instance of the interfaces (integers as floats, hashed paths as random
    numbers), used only in Examples: it lets Coq run the model and shows that the hypotheses of
    the theorems are met by concrete non-trivial runs. *)
From Verif Require Import Prelude Num M_Core M_Kernels M_Strategies M_PT M_Bundle.

Definition ZNum : Num := {|
  F := Z; fofZ := fun z => z; fpi := 3%Z; fninf := (-1000000)%Z;
  fadd := Z.add; fsub := Z.sub; fmul := Z.mul; fdiv := Z.div; fneg := Z.opp;
  fexp := fun z => z; fln := fun z => z; fsqrt := Z.sqrt; ftanh := fun z => z;
  flt := Z.ltb; fle := Z.leb; fnan := fun _ => false;
  ffinite := fun z => negb (z =? -1000000)%Z |}.

(** Keys are paths from the root; random numbers are a hash of the path. *)
Definition hash (k : list nat) : Z := fold_left (fun a i => (a * 31 + Z.of_nat i + 7) mod 1009)%Z k 17%Z.
Definition ZRng : @Rng ZNum := @mkRng ZNum (list nat)
  (fun k n i => i :: k)
  (fun k n => map (fun i => ((hash (i :: k)) mod 5 - 2)%Z) (seq 0 n))
  (fun k => (hash k mod 3 - 1)%Z)
  (fun k => (hash k mod 21 - 10)%Z)
  (fun k n => map (fun i => (i + 1) mod n) (seq 0 n))
  (fun k n m => map (fun i => Z.to_nat (hash (i :: k)) mod n) (seq 0 m)).

(** A "flow": a shift; samples are 2-dimensional. *)
Definition ZNF : @NFOps ZNum ZRng := @mkNFOps ZNum ZRng Z Z Z
  (fun m x => (- (hd 0 x - m) * (hd 0 x - m))%Z)
  (fun m k n => map (fun i => [m + hash (i :: k) mod 7; hash (i :: i :: k) mod 5]%Z) (seq 0 n))
  (fun m b tx st => ((m * m - Z.of_nat (length b))%Z, (m + tx)%Z, (st + 1)%Z))
  (fun m data => (m + Z.of_nat (length data))%Z).

Definition zlp : @lpdf ZNum :=
  @mkLpdf ZNum (fun x d => (- fold_right Z.add 0 (map (fun a => a * a) x))%Z)
               (fun x d => map (fun a => (- 2 * a)%Z) x).

(** A world for one stepping strategy: three buffers for 2 chains, 10 slots, 2 dimensions. *)
Definition zbuf (sh : list nat) : @buffer ZNum := @buffer_init ZNum "b" sh 1.
Definition zstate : state := mkState "st"
  [("p", SStr "P"); ("l", SStr "L"); ("a", SStr "A")]%string.
Definition zworld : @world ZNum ZRng ZNF := @mkWorld ZNum ZRng ZNF
  [OBuf (zbuf [2; 10; 2]); OBuf (zbuf [2; 10]); OBuf (zbuf [2; 10]); OState zstate;
   OCursor 3; OOpt (@mkOptimizer ZNum ZRng ZNF 1%Z 0%Z)]
  [("P", RObj 0); ("L", RObj 1); ("A", RObj 2); ("st", RObj 3);
   ("rw", RSer (@grw_kernel ZNum ZRng (@SScalar ZNum 1%Z)));
   ("nf", RNFP (@mkNfp ZNum ZRng ZNF 1%Z 2));
   ("lp", RLog (mkLogPDF zlp [mkVar "x" true; mkVar "y" true]))]%string.
Definition zts (kern : string) (n th batch : nat) : takesteps :=
  mkTakeSteps "lp" kern "st" "p" "l" "a" n th batch 4.
Definition zstart : list (list Z) := [[1; 2]; [0; 3]]%Z.

Definition zok {A B} (r : res A * B) : bool := match fst r with Ok _ => true | Raise _ => false end.
Definition zdata (w : @world ZNum ZRng ZNF) (l : nat) (ix : list nat) : Z :=
  match hget l w with Some (OBuf b) => aget (b_data b) ix | _ => 0%Z end.
