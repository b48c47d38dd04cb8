(** C14: Hilbert index (src/core_tree.hpp, hilbert_index). *)
From Coq Require Import ZArith List Bool Lia.
From Verif Require Import Base TreeModel TreeSpec HilbertModel HilbertProofs.
Import ListNotations.
Open Scope Z_scope.

(** The index is defined for every in-range address of level at most 30. *)
Theorem hilbert_defined i : in_range 2 i -> (level i <= 30)%nat -> exists d, hilbert_index i = Ok d.
Proof. apply hilbert_total. Qed.

(** Finding: the function passes the level, not 2^level, as the grid size. On every level from 1 to 30
    every address in the left half of the domain collides with its translate in the right half. *)
Theorem hilbert_injective_refuted l x y :
  (1 <= l <= 30)%nat -> (x < 2 ^ (l - 1))%nat -> (y < 2 ^ l)%nat ->
  let i := mkidx l [x; y] in
  let j := mkidx l [(x + 2 ^ (l - 1))%nat; y] in
  in_range 2 i /\ in_range 2 j /\ i <> j /\ exists d, hilbert_index i = Ok d /\ hilbert_index j = Ok d.
Proof.
  intros Hl Hx Hy i j.
  assert (Hpow : (2 ^ l = 2 ^ (l - 1) + 2 ^ (l - 1))%nat).
  { destruct l as [|l']; [lia|]. rewrite Nat.pow_succ_r', Nat.sub_succ, Nat.sub_0_r. lia. }
  assert (Ri : in_range 2 i) by (split; [reflexivity|]; unfold i, j; cbn [level coords]; constructor; [lia|]; constructor; [lia|constructor]).
  assert (Rj : in_range 2 j) by (split; [reflexivity|]; unfold i, j; cbn [level coords]; constructor; [lia|]; constructor; [lia|constructor]).
  split; [exact Ri|]. split; [exact Rj|]. split.
  - unfold i, j. intros E. injection E as E. pose proof (Nat.pow_nonzero 2 (l - 1)). lia.
  - destruct (hilbert_total i Ri) as [d Hd]; [unfold i; cbn [level]; lia|]. exists d. split; [exact Hd|].
    unfold i, j in *. rewrite <- hilbert_collide by lia. exact Hd.
Qed.

(** The inner function called with the grid size 2^k is collision-free and stays below 4^k, for grids up to
    32768 x 32768; this is the strongest version that holds. *)
Theorem hilbert_curve_injective k x y x' y' :
  (k <= 15)%nat ->
  0 <= x < 2 ^ Z.of_nat k -> 0 <= y < 2 ^ Z.of_nat k -> 0 <= x' < 2 ^ Z.of_nat k -> 0 <= y' < 2 ^ Z.of_nat k ->
  exists d d', xy2d (2 ^ Z.of_nat k) x y = Ok d /\ xy2d (2 ^ Z.of_nat k) x' y' = Ok d' /\
    0 <= d < 4 ^ Z.of_nat k /\ (d = d' -> x = x' /\ y = y').
Proof.
  intros Hk Hx Hy Hx' Hy'. rewrite !xy2d_curve by auto. do 2 eexists. split; [reflexivity|]. split; [reflexivity|].
  split; [apply curve_bound|]. intros E. apply curve_inj in E. cbn [fst snd] in E.
  rewrite !Z.mod_small in E by lia. exact E.
Qed.

Example hilbert_example :
  map (fun p => xy2d 4 (fst p) (snd p)) [(0,0);(1,0);(1,1);(0,1);(0,2);(0,3);(1,3);(1,2);(2,2);(2,3);(3,3);(3,2);(3,1);(2,1);(2,0);(3,0)]
    = map (@Ok Z) [0;1;2;3;4;5;6;7;8;9;10;11;12;13;14;15] /\
  hilbert_index (mkidx 2 [1;0]%nat) = hilbert_index (mkidx 2 [3;0]%nat) /\
  hilbert_index (mkidx 2 [1;0]%nat) = Ok 3.
Proof. repeat split; vm_compute; reflexivity. Qed.

Print Assumptions hilbert_defined.
Print Assumptions hilbert_injective_refuted.
Print Assumptions hilbert_curve_injective.
