(** C127: in the explosion program a value that is not a number spreads by one shell per step, and the run does not stop for it. *)
From Coq Require Import ZArith Reals List Bool Arith Lia.
From Flocq Require Import IEEE754.BinarySingleNaN.
From Verif Require Import Base NanModel NanProofs NanProps NanSedovModel.
Import ListNotations.
Close Scope Z_scope.
Open Scope nat_scope.

(** A shell whose mass is not a number. *)
Definition lost (u : nat -> w5) (i : nat) : Prop := is_nan (w0 (u i)) = true.
Lemma nan_sub_r x y : is_nan y = true -> is_nan (sub64 x y) = true. Proof. destruct y; try discriminate. intros _. destruct x; reflexivity. Qed.

(** *** Fluxes *)
Lemma hlle_nan Pl Pr : is_nan (w0 Pl) = true \/ is_nan (w0 Pr) = true -> is_nan (w0 (hlle5 Pl Pr)) = true.
Proof.
  intros H. unfold hlle5. cbv zeta. cbn [map5 zip5 w0]. apply nan_div_l, nan_sub_r, nan_mul_l, nan_mul_l. cbn [conserved5 w0]. destruct H; [apply nan_sub_l|apply nan_sub_r]; assumption.
Qed.
Definition nil64 (x : b64) : bool := match x with B754_zero _ | B754_nan => true | _ => false end.
Lemma nil_mul x y : nil64 y = true -> nil64 (mul64 x y) = true. Proof. destruct y; try discriminate; intros _; destruct x; reflexivity. Qed.
Lemma nil_sub x y : nil64 x = true -> nil64 y = true -> nil64 (sub64 x y) = true. Proof. destruct x as [[|]| | |]; try discriminate; intros _; destruct y as [[|]| | |]; try discriminate; intros _; reflexivity. Qed.
Lemma nil_over x s : nil64 x = true -> is_nan (div64 x (B754_zero s)) = true. Proof. destruct x; try discriminate; reflexivity. Qed.
Lemma sqrt_below x : below_zero x -> is_nan (sqrt64 x) = true.
Proof. intros [N [-> |[F L]]]; [reflexivity|]. destruct x as [s| | |s m e o]; try discriminate F; [cbn in L; exfalso; exact (Rlt_irrefl _ L)|]. destruct s; [reflexivity|]. exfalso. cbn in L. apply (Rlt_irrefl 0). eapply Rlt_trans; [|exact L]. apply Float_prop.F2R_gt_0. reflexivity. Qed.
(** With no sound speed on its left a face has no flux: both bounding speeds are set to zero. *)
Lemma hlle_cold Pl Pr : below_zero (sound2 Pl) -> is_nan (w0 (hlle5 Pl Pr)) = true.
Proof.
  intros H. apply sqrt_below in H. unfold hlle5. cbv zeta. cbn [map5 zip5 w0].
  assert (A : std_max zero64 (std_max (plus_wave Pl) (plus_wave Pr)) = zero64). { unfold std_max at 1. rewrite lt64_nan_r; [reflexivity|]. apply nan_max_l, nan_add_r, H. }
  assert (B : std_min zero64 (std_min (minus_wave Pl) (minus_wave Pr)) = zero64). { unfold std_min at 1. rewrite lt64_nan_l; [reflexivity|]. unfold std_min. rewrite lt64_nan_r; apply nan_sub_r, H. }
  rewrite A, B. change (sub64 zero64 zero64) with (B754_zero false : b64). apply nil_over. repeat apply nil_sub; repeat apply nil_mul; reflexivity.
Qed.

(** *** One step *)
Section Steps.
Variables (n : nat) (da dv rc : nat -> b64) (dt : b64).
Lemma lost_prim u i : lost u i -> is_nan (w0 (prim5 dv u i)) = true. Proof. intros H. apply nan_div_l, H. Qed.
Lemma face_left u i : is_nan (w0 (hlle5 (left5 dv u i) (right5 n dv u i))) = true -> is_nan (w0 (face5 n da dv u i)) = true. Proof. intros H. apply nan_mul_l, H. Qed.
Lemma step_outer u i : is_nan (w0 (face5 n da dv u (S i))) = true -> lost (step5 n da dv rc dt u) i. Proof. intros H. unfold lost, step5. cbv zeta. cbn [zip5 map5 w0]. apply nan_add_r, nan_mul_l, nan_add_l, nan_sub_l, H. Qed.
Lemma step_inner u i : is_nan (w0 (face5 n da dv u i)) = true -> lost (step5 n da dv rc dt u) i. Proof. intros H. unfold lost, step5. cbv zeta. cbn [zip5 map5 w0]. apply nan_add_r, nan_mul_l, nan_add_l, nan_sub_r, H. Qed.
Lemma lost_spreads u i j : i < n -> j < n -> i <= S j -> j <= S i -> lost u i -> lost (step5 n da dv rc dt u) j.
Proof.
  intros Hi Hj A B H. apply lost_prim in H.
  assert (R : is_nan (w0 (face5 n da dv u i)) = true). { apply face_left, hlle_nan. right. unfold right5. destruct (Nat.eqb_spec i n) as [X|_]; [lia|exact H]. }
  assert (L : is_nan (w0 (face5 n da dv u (S i))) = true). { apply face_left, hlle_nan. left. exact H. }
  destruct (Nat.lt_trichotomy j i) as [C|[-> |C]]; [assert (i = S j) as -> by lia; apply step_outer, R|apply step_outer, L|assert (j = S i) as -> by lia; apply step_inner, L].
Qed.

(** A lost shell takes the shells within k of it along in k steps... *)
Theorem nan_spreads : forall k u i j, i < n -> j < n -> i <= j + k -> j <= i + k -> lost u i -> lost (steps5 n da dv rc dt k u) j.
Proof.
  induction k as [|k IH]; intros u i j Hi Hj A B H; cbn [steps5]; [assert (j = i) as -> by lia; exact H|].
  destruct (Nat.lt_trichotomy i j) as [C|[-> |C]].
  - apply (IH _ (S i)); try lia. apply (lost_spreads u i); try lia. exact H.
  - apply (IH _ j); try lia. apply (lost_spreads u j); try lia. exact H.
  - apply (IH _ (i - 1)); try lia. apply (lost_spreads u i); try lia. exact H.
Qed.
(** ... until nothing is left. *)
Theorem nan_takes_all u i j k : i < n -> j < n -> n <= S k -> lost u i -> lost (steps5 n da dv rc dt k u) j.
Proof. intros Hi Hj K H. apply (nan_spreads k u i); try lia. exact H. Qed.

(** Farther shells do not know of it: two states that differ in the shell i only agree beyond k shells of it after k steps, to the last
    bit. *)
Lemma step_local u v j : (forall m, m < n -> j <= S m -> m <= S j -> u m = v m) -> j < n -> step5 n da dv rc dt u j = step5 n da dv rc dt v j.
Proof.
  intros H Hj. assert (P : forall m, m < n -> j <= S m -> m <= S j -> prim5 dv u m = prim5 dv v m) by (intros m A B C; unfold prim5; rewrite (H m A B C); reflexivity).
  assert (F : forall f, f = j \/ f = S j -> face5 n da dv u f = face5 n da dv v f).
  { intros f Hf. unfold face5. f_equal. f_equal; [unfold left5; destruct f as [|m]; [rewrite P by lia; reflexivity|apply P; lia]|]. unfold right5. destruct (Nat.eqb_spec f n) as [E|E]; apply P; lia. }
  unfold step5. cbv zeta. rewrite (F j), (F (S j)), (P j), (H j) by lia. reflexivity.
Qed.
Theorem nan_stays_within : forall k u v j, j < n -> (forall m, m < n -> j <= m + k -> m <= j + k -> u m = v m) -> steps5 n da dv rc dt k u j = steps5 n da dv rc dt k v j.
Proof.
  induction k as [|k IH]; intros u v j Hj H; cbn [steps5]; [apply H; lia|]. apply IH; [exact Hj|]. intros m Hm A B. apply step_local; [|exact Hm]. intros m' Hm' A' B'. apply H; lia.
Qed.

(** How it begins: a shell with a negative squared sound speed (a negative pressure, with a density above zero) is not repaired, since
    the temperature floor is zero.  After the step it has lost its mass, and so has the shell outside of it. *)
Theorem cold_shell_is_lost u i : i < n -> below_zero (sound2 (prim5 dv u i)) -> lost (step5 n da dv rc dt u) i /\ (S i < n -> lost (step5 n da dv rc dt u) (S i)).
Proof.
  intros Hi H. assert (L : is_nan (w0 (face5 n da dv u (S i))) = true) by (apply face_left, hlle_cold, H). split; [apply step_outer, L|]. intros _. apply step_inner, L.
Qed.

(** The run goes on: how many steps it takes and when it ends is the same for every gas. *)
Theorem run_goes_on tfinal : forall fuel m time u v r, loop5 n da dv rc dt tfinal fuel m time u = Ok r -> exists k, fst (fst r) = m + k /\ snd r = steps5 n da dv rc dt k u /\ loop5 n da dv rc dt tfinal fuel m time v = Ok (fst r, steps5 n da dv rc dt k v).
Proof.
  induction fuel as [|f IH]; intros m time u v r E; [discriminate|]. cbn [loop5] in *. destruct (lt64 time tfinal).
  - destruct (IH _ _ _ (step5 n da dv rc dt v) _ E) as (k & A & B & C). exists (S k). split; [lia|]. split; [exact B|exact C].
  - injection E as <-. exists 0. cbn [fst snd steps5]. split; [lia|]. split; reflexivity.
Qed.
End Steps.

(** Beside the theorems: four shells of a grid with unit areas, volumes and radii; gas of mass 1 and energy 1 at rest, but for the first
    shell, whose energy is -1.  Its pressure is negative and all its values are numbers. *)
Definition ex5 (i : nat) : w5 := W5 one64 zero64 zero64 zero64 (if i =? 0 then of_int (-1)%Z else one64).
Definition ones (i : nat) : b64 := one64.
Definition tenth : b64 := div64 one64 (of_int 10%Z).
Definition map_lost (u : nat -> w5) : list bool := map (fun i => is_nan (w0 (u i))) [0; 1; 2; 3].
Example cold_example : below_zero (sound2 (prim5 ones ex5 0)) /\ map_lost ex5 = [false; false; false; false] /\ map_lost (steps5 4 ones ones ones tenth 1 ex5) = [true; true; false; false] /\ map_lost (steps5 4 ones ones ones tenth 2 ex5) = [true; true; true; false] /\
  map_lost (steps5 4 ones ones ones tenth 3 ex5) = [true; true; true; true].
Proof.
  split; [apply lt64_zero; vm_compute; reflexivity|]. split; [vm_compute; reflexivity|]. split; [vm_compute; reflexivity|]. split; vm_compute; reflexivity.
Qed.
(** Four steps of a half to the final time 2, with this gas or any other. *)
Example run_example v : exists r, loop5 4 ones ones ones half64 two64 10 0 zero64 ex5 = Ok r /\ fst (fst r) = 4 /\ loop5 4 ones ones ones half64 two64 10 0 zero64 v = Ok (fst r, steps5 4 ones ones ones half64 4 v).
Proof.
  assert (X : exists r, loop5 4 ones ones ones half64 two64 10 0 zero64 ex5 = Ok r /\ fst (fst r) = 4).
  { destruct (loop5 4 ones ones ones half64 two64 10 0 zero64 ex5) as [r| | |] eqn:E; [exists r; split; [reflexivity|]|exfalso..].
    - assert (Y : match loop5 4 ones ones ones half64 two64 10 0 zero64 ex5 with Ok r => fst (fst r) = 4 | _ => True end) by (vm_compute; reflexivity). rewrite E in Y. exact Y.
    - assert (Y : match loop5 4 ones ones ones half64 two64 10 0 zero64 ex5 with Ok r => true | _ => false end = true) by (vm_compute; reflexivity). rewrite E in Y. discriminate.
    - assert (Y : match loop5 4 ones ones ones half64 two64 10 0 zero64 ex5 with Ok r => true | _ => false end = true) by (vm_compute; reflexivity). rewrite E in Y. discriminate.
    - assert (Y : match loop5 4 ones ones ones half64 two64 10 0 zero64 ex5 with Ok r => true | _ => false end = true) by (vm_compute; reflexivity). rewrite E in Y. discriminate. }
  destruct X as (r & E & F). exists r. split; [exact E|]. split; [exact F|]. destruct (run_goes_on 4 ones ones ones half64 two64 10 0 zero64 ex5 v r E) as (k & A & _ & C). assert (k = 4) as -> by lia. exact C.
Qed.

Print Assumptions nan_spreads.
Print Assumptions nan_takes_all.
Print Assumptions nan_stays_within.
Print Assumptions cold_shell_is_lost.
Print Assumptions run_goes_on.
