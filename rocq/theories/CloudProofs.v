(** The time step of the cloud program, cell by cell. *)
From Coq Require Import ZArith Reals List Lia Lra Bool.
From Verif Require Import Base NdModel NdSpec NdProofs NdOpsModel DimensionalModel HydroModel PlmModel MeshModel SedovModel Rep1Proofs SedovProofs Rep2Proofs CloudModel.
Import ListNotations.
Open Scope Z_scope.

Definition sizes (fuel : nat) (n m : Z) : Prop := 1 <= n /\ 1 <= m /\ (n + 2) * (m + 1) <= 2147483647 /\ (Z.to_nat ((n + 2) * (m + 1)) <= fuel)%nat.
Lemma sizes_fit fuel n m : sizes fuel n m -> n + 5 < two64 /\ m + 5 < two64 /\ n + 1 <= 2147483647 /\ m + 1 <= 2147483647 /\
  forall a b, 0 <= a <= n + 2 -> 0 <= b <= m + 1 -> a * b <= 2147483647 /\ (Z.to_nat (a * b) <= fuel)%nat.
Proof.
  intros (Hn & Hm & Hv & Hf). assert (n + 1 <= 2147483645) by nia. assert (m + 1 <= 2147483646) by nia. unfold two64. repeat split; try lia.
  - nia.
  - assert (a * b <= (n + 2) * (m + 1)) by nia. lia.
Qed.

(** ** Geometry *)
Section Geometry.
Variables (fuel : nat) (n m : Z) (X Q : Z -> R) (rv qv : array R).
Hypothesis HS : sizes fuel n m.
Hypothesis HX : rep1 rv (n + 1) X.
Hypothesis HQ : rep1 qv (m + 1) Q.
Definition center_r (i : Z) : R := ((X i + X (1 + i)) * 0.5)%R.
Definition center_q (j : Z) : R := ((Q j + Q (1 + j)) * 0.5)%R.
Definition area_r (i j : Z) : R := (X i * X i * (cos (Q j) - cos (Q (1 + j))) * 2 * PI)%R.
Definition area_q (i j : Z) : R := (center_r i * (X (1 + i) - X i) * sin (Q j) * 2 * PI)%R.
Definition vol (i j : Z) : R := ((X (1 + i) ^ 3 - X i ^ 3) * (cos (Q j) - cos (Q (1 + j))) * 2 * PI / 3)%R.

Lemma mesh_reps : grid2 (fst (meshgrid rv qv)) (n + 1) (m + 1) (fun i _ => X i) /\ grid2 (snd (meshgrid rv qv)) (n + 1) (m + 1) (fun _ j => Q j).
Proof.
  destruct (sizes_fit _ _ _ HS) as (A & B & C & D & _). destruct HS as (Hn & Hm & _). pose proof (cartesian2 rv qv (n + 1) (m + 1) X Q ltac:(lia) ltac:(lia) HX HQ) as G. unfold meshgrid. cbn [fst snd].
  split; [exact (map2g fst _ _ _ _ G)|exact (map2g snd _ _ _ _ G)].
Qed.
Lemma half_twice (x : R) : ((x + x) * 0.5 = x)%R. Proof. lra. Qed.

Lemma radial_areas_rep : exists a, radial_face_areas rv qv = Ok a /\ grid2 a (n + 1) m area_r.
Proof.
  destruct (sizes_fit _ _ _ HS) as (A & B & C & D & _). pose proof HS as (Hn & Hm & _). unfold radial_face_areas, midpoint, difference. destruct mesh_reps as [G1 G2]. destruct (meshgrid rv qv) as [r q]. cbn [fst snd] in G1, G2.
  destruct (mid_cols Rplus (fun x => (x * 0.5)%R) r (n + 1) (m + 1) _ ltac:(lia) ltac:(lia) G1) as (rc & E1 & R1). rewrite E1. bsimp.
  destruct (diff_cols Rminus _ (n + 1) (m + 1) _ ltac:(lia) ltac:(lia) (map2g Ropp _ _ _ _ (map2g cos _ _ _ _ G2))) as (dm & E2 & R2). unfold arr_opp. rewrite E2. bsimp.
  destruct (binop2 Rmult _ _ _ _ _ _ R1 R1) as (rr & E3 & R3). rewrite E3. bsimp. destruct (binop2 Rmult _ _ _ _ _ _ R3 R2) as (a & E4 & R4). rewrite E4. bsimp.
  eexists. split; [reflexivity|]. replace (m + 1 - 1) with m in R4 by lia. eapply grid2_ext; [exact (map2g _ _ _ _ _ R4)|]. intros i j Hi Hj. cbv beta. rewrite half_twice. unfold area_r. ring.
Qed.
Lemma polar_areas_rep : exists a, polar_face_areas rv qv = Ok a /\ grid2 a n (m + 1) area_q.
Proof.
  destruct (sizes_fit _ _ _ HS) as (A & B & C & D & _). pose proof HS as (Hn & Hm & _). unfold polar_face_areas, midpoint, difference. destruct mesh_reps as [G1 G2]. destruct (meshgrid rv qv) as [r q]. cbn [fst snd] in G1, G2.
  destruct (diff_rows Rminus r (n + 1) (m + 1) _ ltac:(lia) ltac:(lia) G1) as (dr & E1 & R1). rewrite E1. bsimp.
  destruct (mid_rows Rplus (fun x => (x * 0.5)%R) r (n + 1) (m + 1) _ ltac:(lia) ltac:(lia) G1) as (rc & E2 & R2). rewrite E2. bsimp.
  destruct (mid_rows Rplus (fun x => (x * 0.5)%R) q (n + 1) (m + 1) _ ltac:(lia) ltac:(lia) G2) as (qc & E3 & R3). rewrite E3. bsimp.
  destruct (binop2 Rmult _ _ _ _ _ _ R2 R1) as (a & E4 & R4). rewrite E4. bsimp. destruct (binop2 Rmult _ _ _ _ _ _ R4 (map2g sin _ _ _ _ R3)) as (b & E5 & R5). rewrite E5. bsimp.
  eexists. split; [reflexivity|]. replace (n + 1 - 1) with n in R5 by lia. eapply grid2_ext; [exact (map2g _ _ _ _ _ R5)|]. intros i j Hi Hj. cbv beta. rewrite half_twice. unfold area_q, center_r. ring.
Qed.
Lemma volumes_rep : exists a, cell_volumes rv qv = Ok a /\ grid2 a n m vol.
Proof.
  destruct (sizes_fit _ _ _ HS) as (A & B & C & D & _). pose proof HS as (Hn & Hm & _). unfold cell_volumes, midpoint, difference. destruct mesh_reps as [G1 G2]. destruct (meshgrid rv qv) as [r q]. cbn [fst snd] in G1, G2.
  destruct (diff_rows Rminus _ (n + 1) (m + 1) _ ltac:(lia) ltac:(lia) (map2g (fun r => r * r * r)%R _ _ _ _ G1)) as (d0 & E1 & R1). rewrite E1. bsimp.
  destruct (mid_cols Rplus (fun x => (x * 0.5)%R) d0 (n + 1 - 1) (m + 1) _ ltac:(lia) ltac:(lia) R1) as (dv & E2 & R2). rewrite E2. bsimp.
  destruct (diff_cols Rminus _ (n + 1) (m + 1) _ ltac:(lia) ltac:(lia) (map2g Ropp _ _ _ _ (map2g cos _ _ _ _ G2))) as (m0 & E3 & R3). unfold arr_opp. rewrite E3. bsimp.
  destruct (mid_rows Rplus (fun x => (x * 0.5)%R) m0 (n + 1) (m + 1 - 1) _ ltac:(lia) ltac:(lia) R3) as (dm & E4 & R4). rewrite E4. bsimp.
  destruct (binop2 Rmult _ _ _ _ _ _ R2 R4) as (a & E5 & R5). rewrite E5. bsimp. eexists. split; [reflexivity|]. replace (n + 1 - 1) with n in R5 by lia. replace (m + 1 - 1) with m in R5 by lia.
  eapply grid2_ext; [exact (map2g _ _ _ _ _ R5)|]. intros i j Hi Hj. cbv beta. rewrite !half_twice. unfold vol. field.
Qed.
Lemma centers_q : exists a, midpoint 0 qv = Ok a /\ rep1 a m center_q.
Proof.
  destruct (sizes_fit _ _ _ HS) as (A & B & C & D & _). pose proof HS as (Hn & Hm & _). unfold midpoint. destruct (midpoint1 Rplus (fun x => (x * 0.5)%R) qv (m + 1) Q ltac:(lia) HQ) as (z & E & R). exists z. split; [exact E|]. replace (m + 1 - 1) with m in R by lia. exact R.
Qed.
Lemma centroids_rep : exists a, cell_centroids rv qv = Ok a /\ grid2 a n m (fun i j => (center_r i, center_q j)).
Proof.
  destruct (sizes_fit _ _ _ HS) as (A & B & C & D & _). pose proof HS as (Hn & Hm & _). unfold cell_centroids. destruct centers_q as (qc & E2 & R2).
  unfold midpoint in *. destruct (midpoint1 Rplus (fun x => (x * 0.5)%R) rv (n + 1) X ltac:(lia) HX) as (rc & E1 & R1). rewrite E1. bsimp. rewrite E2. bsimp. eexists. split; [reflexivity|].
  replace (n + 1 - 1) with n in R1 by lia. apply cartesian2; try lia; assumption.
Qed.
End Geometry.

(** ** States on the two sides of a face *)
Definition line_gradient (theta : R) (L : Z -> prim) (k i : Z) : prim :=
  if (i =? 0) || (i =? k - 1) then zero_prim else lift3 (estimate_gradient theta) (L (i - 1)) (L i) (L (1 + i)).
(** [k] cells in a line; the face between [i] and [i + 1]. *)
Definition pcm_states (L : Z -> prim) (k i : Z) : prim * prim := (L i, L (1 + i)).
Definition plm_states (theta : R) (L : Z -> prim) (k i : Z) : prim * prim :=
  (prim_plus (L i) (prim_times (line_gradient theta L k i) 0.5), prim_minus (L (1 + i)) (prim_times (line_gradient theta L k (1 + i)) 0.5)).
Lemma times_zero_prim P : prim_times P 0 = zero_prim. Proof. unfold prim_times, zero_prim. f_equal; ring. Qed.
Lemma times_zero5 A : times5 A 0 = zero5. Proof. unfold times5, zero5. f_equal; ring. Qed.

Lemma plm_rows c fuel p k m L : 3 <= k -> 1 <= m -> k + 2 < two64 -> m < two64 -> k * m <= 2147483647 -> (Z.to_nat (k * m) <= fuel)%nat -> grid2 p k m L ->
  exists z, extrapolate_plm c fuel 0 p = Ok z /\ grid2 z (k - 1) m (fun i j => plm_states (plm_theta c) (fun x => L x j) k i).
Proof.
  intros Hk Hm Hs Hs' Hv Hf HP. unfold extrapolate_plm. destruct (adjacent3_rows p k m L ltac:(lia) ltac:(lia) HP) as (t & E1 & R1). rewrite E1. bsimp.
  destruct (zeros_rows (fun x => prim_times x 0) _ (k - 2) m _ zero_prim times_zero_prim ltac:(lia) ltac:(lia) ltac:(lia) (map2g (fun w => lift3 (estimate_gradient (plm_theta c)) (fst w) (fst (snd w)) (snd (snd w))) _ _ _ _ R1)) as (g0 & E2 & R2). rewrite E2. bsimp.
  replace (k - 2 + 2) with k in R2 by lia. destruct (evaluate2 fuel zero_prim g0 k m _ ltac:(lia) ltac:(lia) Hv Hf R2) as (g & E3 & R3). rewrite E3. bsimp.
  destruct (slice_rows p k m L 0 1 ltac:(lia) ltac:(lia) ltac:(lia) ltac:(lia) ltac:(lia) HP) as (pl & E4 & R4). rewrite E4. bsimp.
  destruct (slice_rows g k m _ 0 1 ltac:(lia) ltac:(lia) ltac:(lia) ltac:(lia) ltac:(lia) R3) as (gl & E5 & R5). rewrite E5. bsimp.
  destruct (slice_rows p k m L 1 0 ltac:(lia) ltac:(lia) ltac:(lia) ltac:(lia) ltac:(lia) HP) as (pr & E6 & R6). rewrite E6. bsimp.
  destruct (slice_rows g k m _ 1 0 ltac:(lia) ltac:(lia) ltac:(lia) ltac:(lia) ltac:(lia) R3) as (gr & E7 & R7). rewrite E7. bsimp.
  replace (k - 1 - 0) with (k - 1) in R4, R5 by lia. replace (k - 0 - 1) with (k - 1) in R6, R7 by lia.
  destruct (binop2 prim_plus _ _ _ _ _ _ R4 (map2g (fun x => prim_times x 0.5) _ _ _ _ R5)) as (l & E8 & R8). rewrite E8. bsimp.
  destruct (binop2 prim_minus _ _ _ _ _ _ R6 (map2g (fun x => prim_times x 0.5) _ _ _ _ R7)) as (r & E9 & R9). rewrite E9. bsimp.
  destruct (zip2g _ _ _ _ _ _ R8 R9) as (z & E & R). exists z. split; [exact E|]. eapply grid2_ext; [exact R|]. intros i j Hi Hj. cbv beta. unfold plm_states, line_gradient. cbn [fst snd].
  replace (k - 2 + 1) with (k - 1) by lia. replace (0 + i) with i by lia. f_equal; f_equal; f_equal.
  - destruct (Z.eqb_spec i 0), (Z.eqb_spec i (k - 1)); cbn [orb]; try reflexivity. f_equal; f_equal; lia.
  - destruct (Z.eqb_spec (1 + i) 0), (Z.eqb_spec (1 + i) (k - 1)); cbn [orb]; try reflexivity. f_equal; f_equal; lia.
Qed.
Lemma plm_cols c fuel p n k L : 1 <= n -> 3 <= k -> n < two64 -> k + 2 < two64 -> n * k <= 2147483647 -> (Z.to_nat (n * k) <= fuel)%nat -> grid2 p n k L ->
  exists z, extrapolate_plm c fuel 1 p = Ok z /\ grid2 z n (k - 1) (fun i j => plm_states (plm_theta c) (L i) k j).
Proof.
  intros Hn Hk Hs Hs' Hv Hf HP. unfold extrapolate_plm. destruct (adjacent3_cols p n k L ltac:(lia) ltac:(lia) HP) as (t & E1 & R1). rewrite E1. bsimp.
  destruct (zeros_cols (fun x => prim_times x 0) _ n (k - 2) _ zero_prim times_zero_prim ltac:(lia) ltac:(lia) ltac:(lia) (map2g (fun w => lift3 (estimate_gradient (plm_theta c)) (fst w) (fst (snd w)) (snd (snd w))) _ _ _ _ R1)) as (g0 & E2 & R2). rewrite E2. bsimp.
  replace (k - 2 + 2) with k in R2 by lia. destruct (evaluate2 fuel zero_prim g0 n k _ ltac:(lia) ltac:(lia) Hv Hf R2) as (g & E3 & R3). rewrite E3. bsimp.
  destruct (slice_cols p n k L 0 1 ltac:(lia) ltac:(lia) ltac:(lia) ltac:(lia) ltac:(lia) HP) as (pl & E4 & R4). rewrite E4. bsimp.
  destruct (slice_cols g n k _ 0 1 ltac:(lia) ltac:(lia) ltac:(lia) ltac:(lia) ltac:(lia) R3) as (gl & E5 & R5). rewrite E5. bsimp.
  destruct (slice_cols p n k L 1 0 ltac:(lia) ltac:(lia) ltac:(lia) ltac:(lia) ltac:(lia) HP) as (pr & E6 & R6). rewrite E6. bsimp.
  destruct (slice_cols g n k _ 1 0 ltac:(lia) ltac:(lia) ltac:(lia) ltac:(lia) ltac:(lia) R3) as (gr & E7 & R7). rewrite E7. bsimp.
  replace (k - 1 - 0) with (k - 1) in R4, R5 by lia. replace (k - 0 - 1) with (k - 1) in R6, R7 by lia.
  destruct (binop2 prim_plus _ _ _ _ _ _ R4 (map2g (fun x => prim_times x 0.5) _ _ _ _ R5)) as (l & E8 & R8). rewrite E8. bsimp.
  destruct (binop2 prim_minus _ _ _ _ _ _ R6 (map2g (fun x => prim_times x 0.5) _ _ _ _ R7)) as (r & E9 & R9). rewrite E9. bsimp.
  destruct (zip2g _ _ _ _ _ _ R8 R9) as (z & E & R). exists z. split; [exact E|]. eapply grid2_ext; [exact R|]. intros i j Hi Hj. cbv beta. unfold plm_states, line_gradient. cbn [fst snd].
  replace (k - 2 + 1) with (k - 1) by lia. replace (0 + j) with j by lia. f_equal; f_equal; f_equal.
  - destruct (Z.eqb_spec j 0), (Z.eqb_spec j (k - 1)); cbn [orb]; try reflexivity. f_equal; f_equal; lia.
  - destruct (Z.eqb_spec (1 + j) 0), (Z.eqb_spec (1 + j) (k - 1)); cbn [orb]; try reflexivity. f_equal; f_equal; lia.
Qed.

(** ** One call of advance *)
Section Advance.
Variables (c : config) (fuel : nat) (n m : Z) (X Q : Z -> R) (ref : unit_system).
(** The states at faces, for either method. *)
Definition face_states (L : Z -> prim) (k i : Z) : prim * prim := if reconstruct_method c =? 1 then pcm_states L k i else plm_states (plm_theta c) L k i.
Definition method_ok : Prop := (reconstruct_method c = 1 /\ 2 <= m) \/ (reconstruct_method c = 2 /\ 3 <= m).
Definition nozzle (t : R) (j : Z) : prim := inflow c (t * u_time ref) (mass_density ref) (center_q Q j).
Variables (t : R) (P : Z -> Z -> prim) (U : Z -> Z -> v5) (dt : R).
(** A radial line with the nozzle at its inner and a copy of the last cell at its outer end. *)
Definition extended (j i : Z) : prim := if i <? 1 then nozzle t j else if i <? n + 1 then P (i - 1) j else P (n - 1) j.
Definition flux_r (i j : Z) : v5 := let '(l, r) := face_states (extended j) (n + 2) i in srhd_hlle l r (on_axis 0) gamma_law_index.
Definition flux_q (i j : Z) : v5 := if (j =? 0) || (j =? m) then zero5 else let '(l, r) := face_states (P i) m (j - 1) in srhd_hlle l r (on_axis 1) gamma_law_index.
Definition source_of (i j : Z) : v5 := srhd_source (P i j) gamma_law_index (center_r X i) (tan (PI / 2 - center_q Q j)).
Definition rate_of (i j : Z) : v5 :=
  plus5 (plus5 (minus5 (times5 (flux_r (1 + i) j) (- area_r X Q (1 + i) j)) (times5 (flux_r i j) (- area_r X Q i j)))
               (minus5 (times5 (flux_q i (1 + j)) (- area_q X Q i (1 + j))) (times5 (flux_q i j) (- area_q X Q i j))))
        (times5 (source_of i j) (vol X Q i j)).
Definition next_of (i j : Z) : v5 := plus5 (U i j) (times5 (rate_of i j) dt).

Lemma extended_rep app p0 : sizes fuel n m -> make_reference_units c = Ok ref -> rep1 (polar_vertices app) (m + 1) Q -> time app = t -> grid2 p0 n m P ->
  exists pe, extend_bc c fuel app p0 = Ok pe /\ grid2 pe (n + 2) m (fun i j => extended j i).
Proof.
  intros HS HR HQ HT HP. destruct (sizes_fit _ _ _ HS) as (A & B & C & D & F). pose proof HS as (Hn & Hm & _). unfold extend_bc, extend_zero_gradient_outer, extend_inflow_nozzle_inner.
  destruct (final_row p0 n m P ltac:(lia) ltac:(lia) HP) as (xr & E1 & R1). rewrite E1. bsimp.
  destruct (concat_rows p0 xr n 1 m _ _ ltac:(lia) ltac:(lia) ltac:(lia) ltac:(lia) HP R1) as (e & E2 & R2). rewrite E2. bsimp. rewrite HR. bsimp.
  destruct (centers_q fuel n m Q _ HS HQ) as (qc & E3 & R3). rewrite E3. bsimp. destruct (F 1 m ltac:(lia) ltac:(lia)) as [F1 F2]. rewrite Z.mul_1_l in F1, F2.
  rewrite HT. destruct (row2 fuel zero_prim _ m _ ltac:(lia) F2 (map1 (inflow c (t * u_time ref) (mass_density ref)) _ _ _ R3)) as (b & row & E4 & E5 & R4).
  rewrite E4. bsimp. rewrite (proj1 R3), volume1 by lia. rewrite E5. bsimp.
  destruct (concat_rows row e 1 (n + 1) m _ _ ltac:(lia) ltac:(lia) ltac:(lia) ltac:(lia) R4 R2) as (pe & E6 & R6). exists pe. split; [exact E6|].
  replace (n + 2) with (1 + (n + 1)) by lia. eapply grid2_ext; [exact R6|]. intros i j Hi Hj. cbv beta. unfold extended, nozzle.
  destruct (Z.ltb_spec i 1); [reflexivity|]. destruct (Z.ltb_spec (i - 1) n), (Z.ltb_spec i (n + 1)); try lia; [reflexivity|]. f_equal. lia.
Qed.

Lemma method_rows extrapolate pe (L : Z -> Z -> prim) : sizes fuel n m -> (reconstruct_method c = 1 /\ extrapolate = extrapolate_pcm \/ reconstruct_method c = 2 /\ extrapolate = extrapolate_plm c fuel) ->
  grid2 pe (n + 2) m L -> exists z, extrapolate 0%nat pe = Ok z /\ grid2 z (n + 1) m (fun i j => face_states (fun x => L x j) (n + 2) i).
Proof.
  intros HS HE HP. destruct (sizes_fit _ _ _ HS) as (A & B & C & D & F). pose proof HS as (Hn & Hm & _). unfold face_states. replace (n + 1) with (n + 2 - 1) by lia. destruct HE as [[-> ->]|[-> ->]].
  - destruct (adjacent2_rows pe (n + 2) m L ltac:(lia) ltac:(lia) HP) as (z & E & R). exists z. split; [exact E|]. exact R.
  - destruct (F (n + 2) m ltac:(lia) ltac:(lia)) as [F1 F2]. exact (plm_rows c fuel pe (n + 2) m L ltac:(lia) ltac:(lia) ltac:(lia) ltac:(lia) F1 F2 HP).
Qed.
Lemma method_cols extrapolate p (L : Z -> Z -> prim) : sizes fuel n m -> (reconstruct_method c = 1 /\ 2 <= m /\ extrapolate = extrapolate_pcm \/ reconstruct_method c = 2 /\ 3 <= m /\ extrapolate = extrapolate_plm c fuel) ->
  grid2 p n m L -> exists z, extrapolate 1%nat p = Ok z /\ grid2 z n (m - 1) (fun i j => face_states (L i) m j).
Proof.
  intros HS HE HP. destruct (sizes_fit _ _ _ HS) as (A & B & C & D & F). pose proof HS as (Hn & Hm & _). unfold face_states. destruct HE as [(-> & HM & ->)|(-> & HM & ->)].
  - exact (adjacent2_cols p n m L ltac:(lia) ltac:(lia) HP).
  - destruct (F n m ltac:(lia) ltac:(lia)) as [F1 F2]. exact (plm_cols c fuel p n m L ltac:(lia) ltac:(lia) ltac:(lia) ltac:(lia) F1 F2 HP).
Qed.

Lemma advance_value app s : sizes fuel n m -> method_ok -> make_reference_units c = Ok ref -> rep1 (polar_vertices app) (m + 1) Q -> time app = t ->
  rep1 (radial_vertices s) (n + 1) X -> rep1 (polar_vertices s) (m + 1) Q -> grid2 (conserved s) n m U ->
  (forall i j, 0 <= i < n -> 0 <= j < m -> srhd_recover (over5 (U i j) (vol X Q i j)) gamma_law_index (temperature_floor c) = Ok (P i j)) ->
  exists u, advance c fuel app s dt = Ok (Solution (time s + dt) (radial_vertices s) (polar_vertices s) u) /\ grid2 u n m next_of.
Proof.
  intros HS HM HR HA HT HX HQ HU HP. destruct (sizes_fit _ _ _ HS) as (A & B & C & D & F). pose proof HS as (Hn & Hm & _).
  assert (HM' : exists extrapolate, (reconstruct_method c = 1 /\ 2 <= m /\ extrapolate = extrapolate_pcm \/ reconstruct_method c = 2 /\ 3 <= m /\ extrapolate = extrapolate_plm c fuel) /\ advance c fuel app s dt = advance_with c fuel extrapolate app s dt).
  { unfold advance. destruct HM as [[M1 M2]|[M1 M2]]; [exists extrapolate_pcm|exists (extrapolate_plm c fuel)]; rewrite M1; cbn [Z.eqb Pos.eqb]; tauto. }
  destruct HM' as (ex & HE & ->). assert (HE' : reconstruct_method c = 1 /\ ex = extrapolate_pcm \/ reconstruct_method c = 2 /\ ex = extrapolate_plm c fuel) by tauto. assert (M2 : 2 <= m) by (destruct HE as [H|H]; lia).
  unfold advance_with. cbv zeta. destruct (F n m ltac:(lia) ltac:(lia)) as [F1 F2]. destruct (F (n + 1) m ltac:(lia) ltac:(lia)) as [F3 F4]. destruct (F n (m + 1) ltac:(lia) ltac:(lia)) as [F5 F6].
  destruct (centroids_rep fuel n m X Q _ _ HS HX HQ) as (rc0 & E1 & R1). rewrite E1. bsimp. destruct (evaluate2 fuel (0%R, 0%R) rc0 n m _ ltac:(lia) ltac:(lia) F1 F2 R1) as (rc & E2 & R2). rewrite E2. bsimp.
  destruct (volumes_rep fuel n m X Q _ _ HS HX HQ) as (dv0 & E3 & R3). rewrite E3. bsimp. destruct (evaluate2 fuel 0%R dv0 n m _ ltac:(lia) ltac:(lia) F1 F2 R3) as (dv & E4 & R4). rewrite E4. bsimp.
  destruct (radial_areas_rep fuel n m X Q _ _ HS HX HQ) as (ar0 & E5 & R5). rewrite E5. bsimp. destruct (evaluate2 fuel 0%R ar0 (n + 1) m _ ltac:(lia) ltac:(lia) F3 F4 R5) as (ar & E6 & R6). rewrite E6. bsimp.
  destruct (polar_areas_rep fuel n m X Q _ _ HS HX HQ) as (aq0 & E7 & R7). rewrite E7. bsimp. destruct (evaluate2 fuel 0%R aq0 n (m + 1) _ ltac:(lia) ltac:(lia) F5 F6 R7) as (aq & E8 & R8). rewrite E8. bsimp.
  destruct (binop2 over5 _ _ _ _ _ _ HU R4) as (q & E9 & R9). rewrite E9. bsimp.
  destruct (evaluate2 fuel zero_prim _ n m _ ltac:(lia) ltac:(lia) F1 F2 (mapM2g (fun U => srhd_recover U gamma_law_index (temperature_floor c)) q n m _ P R9 HP)) as (p0 & E10 & R10). rewrite E10. bsimp.
  destruct (zip2g _ _ _ _ _ _ R10 R2) as (pr & E11 & R11). rewrite E11. bsimp. apply (map2g (fun w => srhd_source (fst w) gamma_law_index (fst (snd w)) (tan (PI / 2 - snd (snd w))))) in R11.
  destruct (binop2 times5 _ _ _ _ _ _ R11 R4) as (s0 & E12 & R12). rewrite E12. bsimp.
  destruct (extended_rep app p0 HS HR HA HT R10) as (pe & E13 & R13). rewrite E13. bsimp.
  destruct (method_rows ex pe _ HS HE' R13) as (zr & E14 & R14). rewrite E14. bsimp. unfold intercell_flux at 1.
  destruct (binop2 times5 _ _ _ _ _ _ (map2g (fun w => srhd_hlle (fst w) (snd w) (on_axis 0) gamma_law_index) _ _ _ _ R14) (map2g Ropp _ _ _ _ R6)) as (fr & E15 & R15). unfold arr_opp at 1. rewrite E15. bsimp.
  destruct (diff_rows minus5 fr (n + 1) m _ ltac:(lia) ltac:(lia) R15) as (lr & E16 & R16). rewrite E16. bsimp. replace (n + 1 - 1) with n in R16 by lia.
  destruct (method_cols ex p0 _ HS HE R10) as (zq & E17 & R17). rewrite E17. bsimp. unfold intercell_flux.
  destruct (zeros_cols (fun x => times5 x 0) _ n (m - 1) _ zero5 times_zero5 ltac:(lia) ltac:(lia) ltac:(lia) (map2g (fun w => srhd_hlle (fst w) (snd w) (on_axis 1) gamma_law_index) _ _ _ _ R17)) as (fq0 & E18 & R18). rewrite E18. bsimp.
  replace (m - 1 + 2) with (m + 1) in R18 by lia. destruct (binop2 times5 _ _ _ _ _ _ R18 (map2g Ropp _ _ _ _ R8)) as (fq & E19 & R19). unfold arr_opp. rewrite E19. bsimp.
  destruct (diff_cols minus5 fq n (m + 1) _ ltac:(lia) ltac:(lia) R19) as (lq & E20 & R20). rewrite E20. bsimp. replace (m + 1 - 1) with m in R20 by lia.
  destruct (binop2 plus5 _ _ _ _ _ _ R16 R20) as (l & E21 & R21). rewrite E21. bsimp. destruct (binop2 plus5 _ _ _ _ _ _ R21 R12) as (ls & E22 & R22). rewrite E22. bsimp.
  destruct (binop2 plus5 _ _ _ _ _ _ HU (map2g (fun x => times5 x dt) _ _ _ _ R22)) as (u1 & E23 & R23). rewrite E23. bsimp.
  destruct (evaluate2 fuel zero5 u1 n m _ ltac:(lia) ltac:(lia) F1 F2 R23) as (u & E24 & R24). rewrite E24. bsimp. exists u. split; [reflexivity|].
  eapply grid2_ext; [exact R24|]. intros i j Hi Hj. cbv beta. unfold next_of, rate_of, source_of, flux_r, flux_q. cbn [fst snd]. replace (m - 1 + 1) with m by lia.
  f_equal; f_equal; f_equal; f_equal; f_equal; f_equal; try (destruct (face_states _ _ _); reflexivity).
Qed.
End Advance.

(** A call that succeeds has recovered a state in every cell, and the units were defined. *)
Lemma advance_recovers c fuel n m X Q app s dt s' U : sizes fuel n m -> rep1 (radial_vertices s) (n + 1) X -> rep1 (polar_vertices s) (m + 1) Q -> grid2 (conserved s) n m U ->
  advance c fuel app s dt = Ok s' -> (exists P, forall i j, 0 <= i < n -> 0 <= j < m -> srhd_recover (over5 (U i j) (vol X Q i j)) gamma_law_index (temperature_floor c) = Ok (P i j)) /\
  exists ref, make_reference_units c = Ok ref.
Proof.
  intros HS HX HQ HU E. destruct (sizes_fit _ _ _ HS) as (A & B & C & D & F). pose proof HS as (Hn & Hm & _). assert (EX : exists ex, advance_with c fuel ex app s dt = Ok s').
  { unfold advance in E. destruct (reconstruct_method c =? 1); [eauto|]. destruct (reconstruct_method c =? 2); [eauto|discriminate]. }
  clear E. destruct EX as [ex E]. unfold advance_with in E. cbv zeta in E. destruct (F n m ltac:(lia) ltac:(lia)) as [F1 F2].
  apply bind_ok_inv in E as (? & _ & E). apply bind_ok_inv in E as (? & _ & E).
  destruct (volumes_rep fuel n m X Q _ _ HS HX HQ) as (dv0 & E3 & R3). rewrite E3 in E. cbn [bind] in E. destruct (evaluate2 fuel 0%R dv0 n m _ ltac:(lia) ltac:(lia) F1 F2 R3) as (dv & E4 & R4). rewrite E4 in E. cbn [bind] in E.
  do 4 apply bind_ok_inv in E as (? & _ & E). destruct (binop2 over5 _ _ _ _ _ _ HU R4) as (q & E9 & R9). rewrite E9 in E. cbn [bind] in E. apply bind_ok_inv in E as (p0 & EV & E).
  apply bind_ok_inv in E as (? & _ & E). apply bind_ok_inv in E as (? & _ & E). apply bind_ok_inv in E as (? & E & _). split.
  - pose proof (evaluate2_reads fuel zero_prim (arr_mapM (fun U => srhd_recover U gamma_law_index (temperature_floor c)) q) n m p0 ltac:(lia) ltac:(lia) F1 F2 (proj1 R9) EV) as V.
    exists (fun i j => match srhd_recover (over5 (U i j) (vol X Q i j)) gamma_law_index (temperature_floor c) with Ok p => p | _ => zero_prim end). intros i j Hi Hj.
    destruct (V i j Hi Hj) as [v Hv]. cbn [arr_mapM aget] in Hv. rewrite (proj2 R9 i j Hi Hj) in Hv. cbn [bind] in Hv. rewrite Hv. reflexivity.
  - unfold extend_bc, extend_inflow_nozzle_inner in E. apply bind_ok_inv in E as (? & _ & E). apply bind_ok_inv in E as (ref & E & _). eauto.
Qed.
