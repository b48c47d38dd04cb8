(** C61: cells updated with HLLE fluxes stay physical under the usual limit on the time step. *)
From Coq Require Import List Reals Lra Lia Psatz.
From Verif Require Import Base DimensionalModel HydroModel HlleProofs SrhdProps HlleProps ConversionProps.
Open Scope R_scope.

Definition add5 (A B : v5) : v5 := V5 (c0 A + c0 B) (c1 A + c1 B) (c2 A + c2 B) (c3 A + c3 B) (c4 A + c4 B).
Definition scl5 (k : R) (A : v5) : v5 := V5 (k * c0 A) (k * c1 A) (k * c2 A) (k * c3 A) (k * c4 A).
Definition sub5 (A B : v5) : v5 := V5 (c0 A - c0 B) (c1 A - c1 B) (c2 A - c2 B) (c3 A - c3 B) (c4 A - c4 B).
Definition momentum2 (U : v5) : R := c1 U * c1 U + c2 U * c2 U + c3 U * c3 U.

(** The finite-volume update of a cell whose faces carry the fluxes [FL] and [FR]; [lambda] is the time step over
    the cell width. *)
Definition updated (U FL FR : v5) (lambda : R) : v5 := sub5 U (scl5 lambda (sub5 FR FL)).

(** Sets of states closed under positive combinations. *)
Record convex_cone (C : v5 -> Prop) : Prop := {
  cone_add : forall A B, C A -> C B -> C (add5 A B);
  cone_scale : forall k A, 0 < k -> C A -> C (scl5 k A) }.
Lemma scl5_0 A B : add5 (scl5 0 A) B = B.
Proof. destruct B. unfold add5, scl5. simpl. f_equal; ring. Qed.
Lemma add5_comm A B : add5 A B = add5 B A.
Proof. unfold add5. f_equal; ring. Qed.
Lemma cone_combination C A1 A2 A3 k1 k2 k3 : convex_cone C -> C A1 -> C A2 -> C A3 -> 0 <= k1 -> 0 <= k2 -> 0 <= k3 -> 0 < k1 + k2 + k3 ->
  C (add5 (scl5 k1 A1) (add5 (scl5 k2 A2) (scl5 k3 A3))).
Proof.
  intros [CA CS] H1 H2 H3 N1 N2 N3 S.
  assert (TWO : forall A B a b, C A -> C B -> 0 <= a -> 0 <= b -> 0 < a + b -> C (add5 (scl5 a A) (scl5 b B))).
  { intros A B a b HA HB Na Nb Sab. destruct (Req_dec a 0) as [->|]; [rewrite scl5_0; apply CS; [lra|assumption]|].
    destruct (Req_dec b 0) as [->|]; [rewrite add5_comm, scl5_0; apply CS; [lra|assumption]|]. apply CA; apply CS; assumption || lra. }
  destruct (Req_dec k1 0) as [->|]; [rewrite scl5_0; apply TWO; assumption || lra|].
  destruct (Req_dec (k2 + k3) 0) as [Z|].
  - assert (k2 = 0) as -> by lra. assert (k3 = 0) as -> by lra. rewrite scl5_0, add5_comm, scl5_0. apply CS; [lra|assumption].
  - apply CA; [apply CS; [lra|assumption]|apply TWO; assumption || lra].
Qed.

(** The general argument: if s U - F is in the cone for s above the right-moving speed and F - s U for s below the
    left-moving one, the updated state is in the cone. *)
Section General.
Variable C : v5 -> Prop.
Hypothesis HC : convex_cone C.
Variables (UL U UR FL F FR : v5) (aL a aR : R * R).
Hypotheses (HU : C U)
  (RP : forall s, snd a <= s -> s <= fan_plus a aR \/ s <= fan_plus aL a -> C (sub5 (scl5 s U) F)) (RM : forall s, s <= fst a -> fan_minus a aR <= s \/ fan_minus aL a <= s -> C (sub5 F (scl5 s U)))
  (LM : C (sub5 FL (scl5 (fan_minus aL a) UL))) (RPr : C (sub5 (scl5 (fan_plus a aR) UR) FR))
  (OL : fst aL < snd aL) (O : fst a < snd a).
Let HR := hlle5 (fan_plus a aR) (fan_minus a aR) F FR U UR.
Let HL := hlle5 (fan_plus aL a) (fan_minus aL a) FL F UL U.

Lemma star_cone ap am Ul Ur Fl Fr : 0 < ap - am -> C (sub5 (scl5 ap Ur) Fr) -> C (sub5 Fl (scl5 am Ul)) ->
  C (scl5 (/ (ap - am)) (add5 (sub5 (scl5 ap Ur) Fr) (sub5 Fl (scl5 am Ul)))).
Proof. intros D A B. apply HC; [apply Rinv_0_lt_compat; lra|]. apply HC; assumption. Qed.

Lemma update_in_cone lambda : 0 <= lambda -> lambda * (fan_plus aL a - fan_minus a aR) <= 1 -> C (updated U HL HR lambda).
Proof.
  intros L0 L1.
  pose proof (fan_open a aR O) as OR. pose proof (fan_open aL a OL) as OL'.
  pose proof (fan_signs a aR) as [SR _]. pose proof (fan_signs aL a) as [_ SL].
  destruct (fan_bounds a aR) as (B1 & _ & B2 & _). destruct (fan_bounds aL a) as (_ & B3 & _ & B4).
  pose proof (star_cone (fan_plus a aR) (fan_minus a aR) U UR F FR OR RPr (RM _ B2 (or_introl (Rle_refl _)))) as KR.
  pose proof (star_cone (fan_plus aL a) (fan_minus aL a) UL U FL F OL' (RP _ B3 (or_intror (Rle_refl _))) LM) as KL.
  assert (E : updated U HL HR lambda =
    add5 (scl5 (1 - lambda * (fan_plus aL a - fan_minus a aR)) U)
      (add5 (scl5 (lambda * - fan_minus a aR) (scl5 (/ (fan_plus a aR - fan_minus a aR)) (add5 (sub5 (scl5 (fan_plus a aR) UR) FR) (sub5 F (scl5 (fan_minus a aR) U)))))
            (scl5 (lambda * fan_plus aL a) (scl5 (/ (fan_plus aL a - fan_minus aL a)) (add5 (sub5 (scl5 (fan_plus aL a) U) F) (sub5 FL (scl5 (fan_minus aL a) UL))))))).
  { unfold HR, HL, updated, hlle5, add5, sub5, scl5. cbn [c0 c1 c2 c3 c4]. unfold hlle_component. f_equal; field; split; lra. }
  rewrite E. apply cone_combination; try assumption; try nra.
Qed.
End General.

(** Euler: positive density and more energy than the motion needs. *)
Definition euler_cone (U : v5) : Prop := 0 < c0 U /\ momentum2 U < 2 * c0 U * c4 U.
Lemma euler_cone_convex : convex_cone euler_cone.
Proof.
  split.
  - intros [r a b c e] [r' a' b' c' e'] [H1 H2] [H3 H4]. unfold euler_cone, momentum2, add5 in *. cbn [c0 c1 c2 c3 c4] in *. split; [lra|].
    assert (Q : forall x x', 0 <= (x * r' - x' * r) * (x * r' - x' * r)) by (intros; apply Rle_0_sqr). pose proof (Q a a'). pose proof (Q b b'). pose proof (Q c c').
    apply (Rmult_lt_reg_r (r * r')); [nra|].
    assert (K : ((a + a') * (a + a') + (b + b') * (b + b') + (c + c') * (c + c')) * (r * r') <= (r + r') * ((a * a + b * b + c * c) * r' + (a' * a' + b' * b' + c' * c') * r)) by nra.
    assert (K2 : (a * a + b * b + c * c) * r' < 2 * r * e * r') by (apply Rmult_lt_compat_r; assumption). assert (K3 : (a' * a' + b' * b' + c' * c') * r < 2 * r' * e' * r) by (apply Rmult_lt_compat_r; assumption).
    assert (K4 : (r + r') * ((a * a + b * b + c * c) * r' + (a' * a' + b' * b' + c' * c') * r) < (r + r') * (2 * r * e * r' + 2 * r' * e' * r)) by (apply Rmult_lt_compat_l; lra).
    nra.
  - intros k [r a b c e] Hk [H1 H2]. unfold euler_cone, momentum2, scl5 in *. cbn [c0 c1 c2 c3 c4] in *. split; [nra|].
    assert (0 < k * k) by nra. nra.
Qed.
Lemma euler_state_in_cone P g : euler_ok P g -> euler_cone (euler_conserved P g).
Proof.
  intros (Hr & Hp & Hg). unfold euler_cone, momentum2, euler_conserved, velocity_squared. cbn [c0 c1 c2 c3 c4]. split; [assumption|].
  assert (0 < pre P / (g - 1)) by (apply Rdiv_lt_0_compat; lra). replace 0.5 with (/ 2) by lra. nra.
Qed.
Lemma euler_one_sided P n g s : euler_ok P g -> unit_norm n ->
  (snd (euler_wavespeeds P n g) <= s -> euler_cone (sub5 (scl5 s (euler_conserved P g)) (euler_physical_flux P n g))) /\
  (s <= fst (euler_wavespeeds P n g) -> euler_cone (sub5 (euler_physical_flux P n g) (scl5 s (euler_conserved P g)))).
Proof.
  intros (Hr & Hp & Hg) Hn. unfold unit_norm in Hn.
  assert (C2 : 0 < euler_sound_speed_squared P g) by (unfold euler_sound_speed_squared; apply Rdiv_lt_0_compat; nra).
  pose proof (sqrt_lt_R0 _ C2) as CS. pose proof (sqrt_sqrt _ (Rlt_le _ _ C2)) as CC.
  assert (CR : euler_sound_speed_squared P g * rho P = g * pre P) by (unfold euler_sound_speed_squared; field; lra).
  unfold euler_wavespeeds. cbv zeta. cbn [fst snd]. set (c := sqrt (euler_sound_speed_squared P g)) in *. rewrite <- CC in CR. clear CC C2. clearbody c.
  set (e := pre P / (g - 1)). assert (EE : e * (g - 1) = pre P) by (unfold e; field; lra). assert (E0 : 0 < e) by (unfold e; apply Rdiv_lt_0_compat; lra).
  assert (KEY : forall t, c <= t -> pre P * pre P < 2 * rho P * t * (t * e)).
  { intros t Ht. assert (c * c <= t * t) by nra. assert (g * pre P <= t * t * rho P) by nra. assert (g * pre P * e <= t * t * rho P * e) by (apply Rmult_le_compat_r; lra). nra. }
  assert (NV : forall t x y z p, 
     (t * x + p * n1 n) * (t * x + p * n1 n) + (t * y + p * n2 n) * (t * y + p * n2 n) + (t * z + p * n3 n) * (t * z + p * n3 n) =
     t * t * (x * x + y * y + z * z) + 2 * t * p * (x * n1 n + y * n2 n + z * n3 n) + p * p).
  { intros t x y z p. replace (p * p) with (p * p * (n1 n * n1 n + n2 n * n2 n + n3 n * n3 n)) by (rewrite Hn; ring). ring. }
  unfold euler_cone, momentum2, euler_physical_flux, euler_flux, flux5, euler_conserved, velocity_squared, sub5, scl5. cbn [c0 c1 c2 c3 c4].
  fold e. set (v := velocity_along P n). replace 0.5 with (/ 2) by lra. split; intros H.
  - split; [nra|].
    assert (A1 : forall x k, s * (rho P * x) - (v * (rho P * x) + pre P * k) = (s - v) * rho P * x + - pre P * k) by (intros; ring). rewrite !A1, NV.
    replace (u1 P * n1 n + u2 P * n2 n + u3 P * n3 n) with v by reflexivity. pose proof (KEY (s - v) ltac:(lra)). clearbody v e. lra.
  - split; [nra|].
    assert (A1 : forall x k, v * (rho P * x) + pre P * k - s * (rho P * x) = (v - s) * rho P * x + pre P * k) by (intros; ring). rewrite !A1, NV.
    replace (u1 P * n1 n + u2 P * n2 n + u3 P * n3 n) with v by reflexivity. pose proof (KEY (v - s) ltac:(lra)). clearbody v e. lra.
Qed.

(** The update of any cell between any two neighbours, along any direction, keeps density and pressure positive
    when no signal from one face can reach past the cell before the other's does. *)
Theorem euler_hlle_update_physical Pl P Pr n g lambda : euler_ok Pl g -> euler_ok P g -> euler_ok Pr g -> unit_norm n -> 0 <= lambda ->
  lambda * (fan_plus (euler_wavespeeds Pl n g) (euler_wavespeeds P n g) - fan_minus (euler_wavespeeds P n g) (euler_wavespeeds Pr n g)) <= 1 ->
  let U' := updated (euler_conserved P g) (euler_hlle Pl P n g) (euler_hlle P Pr n g) lambda in
  forall floor, physical (euler_recover U' g floor) /\ euler_conserved (euler_recover U' g floor) g = U'.
Proof.
  intros HL HP HR Hn L0 L1 U' floor.
  assert (CU : euler_cone U').
  { unfold U', euler_hlle. cbv zeta. apply (update_in_cone euler_cone euler_cone_convex); try assumption.
    - apply euler_state_in_cone; assumption.
    - intros s Hs _. apply (euler_one_sided P n g s HP Hn). exact Hs.
    - intros s Hs _. apply (euler_one_sided P n g s HP Hn). exact Hs.
    - apply (euler_one_sided Pl n g _ HL Hn). apply fan_bounds.
    - apply (euler_one_sided Pr n g _ HR Hn). apply fan_bounds.
    - apply euler_speeds_open; assumption.
    - apply euler_speeds_open; assumption. }
  destruct CU as [D M]. destruct HP as (_ & _ & Hg). clearbody U'.
  assert (EN : momentum2 U' / (2 * c0 U') < c4 U').
  { apply (Rmult_lt_reg_r (2 * c0 U')); [lra|]. unfold Rdiv. rewrite Rmult_assoc, Rinv_l, Rmult_1_r by lra. lra. }
  destruct (euler_recover_pressure U' g floor D Hg) as [PP _]. fold (momentum2 U') in PP. specialize (PP (Rlt_le _ _ EN)).
  assert (POS : 0 < pre (euler_recover U' g floor)) by (rewrite PP; nra).
  split; [split; [exact D|exact POS]|].
  rewrite <- (euler_conserve_after_recover U' g D Hg) at 2. f_equal.
  unfold euler_recover in *. cbn [pre] in *. destruct (Rlt_dec _ 0) as [LT|]; [|reflexivity].
  destruct (Rlt_dec 0 floor) as [LF|LF]; [|destruct (Rlt_dec 0 0); [lra|reflexivity]]. exfalso.
  fold (momentum2 U') in LT. assert (0 < c4 U' - 0.5 * momentum2 U' / c0 U'); [|nra].
  replace (0.5 * momentum2 U' / c0 U') with (momentum2 U' / (2 * c0 U')); [lra|]. replace 0.5 with (/ 2) by lra. field. lra.
Qed.

(** Isothermal: the density stays positive. *)
Definition embed (U : v3) : v5 := V5 (d0 U) (d1 U) (d2 U) 0 0.
Lemma density_cone : convex_cone (fun U => 0 < c0 U).
Proof. split; intros; unfold add5, scl5; cbn [c0]; nra. Qed.
Theorem iso_hlle_update_physical Pl P Pr n cl c cr lambda : 0 < sigma Pl -> 0 < sigma P -> 0 < sigma Pr -> 0 < cl -> 0 < c -> 0 < cr -> 0 <= lambda ->
  lambda * (fan_plus (iso_wavespeeds Pl n cl) (iso_wavespeeds P n c) - fan_minus (iso_wavespeeds P n c) (iso_wavespeeds Pr n cr)) <= 1 ->
  let FL := iso_hlle Pl P cl c n in let FR := iso_hlle P Pr c cr n in
  let s' := d0 (iso_conserved P) - lambda * (d0 FR - d0 FL) in 0 < s' /\
  forall m1 m2, exists P', iso_recover (V3 s' m1 m2) = Ok P' /\ sigma P' = s'.
Proof.
  intros HL HP HR CL CC CR L0 L1 FL FR s'.
  assert (S : 0 < s').
  { change s' with (c0 (updated (embed (iso_conserved P)) (hlle5 (fan_plus (iso_wavespeeds Pl n cl) (iso_wavespeeds P n c)) (fan_minus (iso_wavespeeds Pl n cl) (iso_wavespeeds P n c)) (embed (iso_flux Pl n cl)) (embed (iso_flux P n c)) (embed (iso_conserved Pl)) (embed (iso_conserved P)))
       (hlle5 (fan_plus (iso_wavespeeds P n c) (iso_wavespeeds Pr n cr)) (fan_minus (iso_wavespeeds P n c) (iso_wavespeeds Pr n cr)) (embed (iso_flux P n c)) (embed (iso_flux Pr n cr)) (embed (iso_conserved P)) (embed (iso_conserved Pr))) lambda)).
    assert (ONE : forall P c s, 0 < sigma P -> 0 < c -> (snd (iso_wavespeeds P n c) <= s -> 0 < c0 (sub5 (scl5 s (embed (iso_conserved P))) (embed (iso_flux P n c)))) /\
      (s <= fst (iso_wavespeeds P n c) -> 0 < c0 (sub5 (embed (iso_flux P n c)) (scl5 s (embed (iso_conserved P)))))).
    { intros Q k s HQ Hk. pose proof (sqrt_lt_R0 _ Hk). unfold iso_wavespeeds, sub5, scl5, embed, iso_conserved, iso_flux. cbn [fst snd c0 d0]. split; intros; nra. }
    apply (update_in_cone (fun U => 0 < c0 U) density_cone); try assumption.
    - intros s Hs _. apply ONE; assumption.
    - intros s Hs _. apply ONE; assumption.
    - apply ONE; try assumption. apply fan_bounds.
    - apply ONE; try assumption. apply fan_bounds.
    - apply iso_speeds_open; assumption.
    - apply iso_speeds_open; assumption. }
  split; [exact S|]. intros m1 m2. unfold iso_recover. cbn [d0 d1 d2]. destruct (Rlt_dec s' 0); [lra|]. eexists. split; reflexivity.
Qed.

(** Relativistic: positive density, positive energy, and more energy than rest mass and momentum need. *)
Definition srhd_cone (U : v5) : Prop := 0 < c0 U /\ 0 < c4 U + c0 U /\ c0 U * c0 U + momentum2 U < (c4 U + c0 U) * (c4 U + c0 U).
Lemma srhd_cone_convex : convex_cone srhd_cone.
Proof.
  split.
  - intros [r a b c e] [r' a' b' c' e'] (H1 & H2 & H3) (H4 & H5 & H6). unfold srhd_cone, momentum2, add5 in *. cbn [c0 c1 c2 c3 c4] in *.
    split; [lra|]. split; [lra|]. set (E := e + r) in *. set (E' := e' + r') in *. replace (e + e' + (r + r')) with (E + E') by (unfold E, E'; ring).
    assert (CS : (r * r' + a * a' + b * b' + c * c') * (r * r' + a * a' + b * b' + c * c') <= (r * r + (a * a + b * b + c * c)) * (r' * r' + (a' * a' + b' * b' + c' * c'))).
    { assert (Q : forall x y, 0 <= (x - y) * (x - y)) by (intros; apply Rle_0_sqr).
      pose proof (Q (r * a') (a * r')). pose proof (Q (r * b') (b * r')). pose proof (Q (r * c') (c * r')). pose proof (Q (a * b') (b * a')). pose proof (Q (a * c') (c * a')). pose proof (Q (b * c') (c * b')). lra. }
    assert (DOT : r * r' + a * a' + b * b' + c * c' < E * E').
    { apply Rnot_le_lt. intros N. assert (0 < E * E') by nra.
      assert (E * E' * (E * E') <= (r * r' + a * a' + b * b' + c * c') * (r * r' + a * a' + b * b' + c * c')) by nra.
      assert (P1 : 0 <= r * r + (a * a + b * b + c * c)) by nra. assert (P2 : 0 < E' * E') by nra.
      assert ((r * r + (a * a + b * b + c * c)) * (r' * r' + (a' * a' + b' * b' + c' * c')) <= (r * r + (a * a + b * b + c * c)) * (E' * E')) by (apply Rmult_le_compat_l; lra).
      assert ((r * r + (a * a + b * b + c * c)) * (E' * E') < E * E * (E' * E')) by (apply Rmult_lt_compat_r; lra). lra. }
    lra.
  - intros k [r a b c e] Hk (H1 & H2 & H3). unfold srhd_cone, momentum2, scl5 in *. cbn [c0 c1 c2 c3 c4] in *. split; [nra|]. split; [nra|].
    assert (0 < k * k) by nra. nra.
Qed.

(** The two inequalities behind the relativistic case. *)
Lemma srhd_core r p g W2 v s : 0 < r -> 0 < p -> 1 < g -> g <= 2 -> 1 <= W2 -> W2 * (v * v) <= W2 - 1 -> s * s < 1 -> 0 < s - v ->
  let H := r + p * (1 + 1 / (g - 1)) in let c2 := g * p / H in
  c2 * (1 - s * s) <= W2 * ((s - v) * (s - v)) * (1 - c2) ->
  0 < W2 * ((s - v) * (s - v)) * (H * H - 2 * H * p - r * r) - p * p * (1 - s * s) /\ 0 < W2 * H * (s - v) - p * s.
Proof.
  intros Hr Hp Hg1 Hg2 HW HV Hs Ht H c2 Q. set (t := s - v) in *.
  set (e := p / (g - 1)). assert (EP : p = (g - 1) * e) by (unfold e; field; lra). assert (E0 : 0 < e) by (unfold e; apply Rdiv_lt_0_compat; lra).
  assert (HE : H = r + g * e) by (unfold H, e; field; lra). assert (H0 : 0 < H) by nra.
  assert (CH : c2 * H = g * p) by (unfold c2; field; lra). clearbody H c2 e.
  assert (WT : 0 < W2 * (t * t)) by (apply Rmult_lt_0_compat; nra).
  assert (QH : g * p * (1 - s * s) <= W2 * (t * t) * (H - g * p)).
  { rewrite <- CH. assert (c2 * (1 - s * s) * H <= W2 * (t * t) * (1 - c2) * H) by (apply Rmult_le_compat_r; lra). lra. }
  split.
  - assert (K : p * (H - g * p) < g * (H * H - 2 * H * p - r * r)).
    { rewrite HE, EP. assert (R1 : g * ((r + g * e) * (r + g * e) - 2 * (r + g * e) * ((g - 1) * e) - r * r) - (g - 1) * e * (r + g * e - g * ((g - 1) * e)) = r * e * (g + 1) + g * (2 - g) * (e * e)) by ring.
      assert (0 < r * e) by nra. assert (0 <= g * (2 - g) * (e * e)) by (apply Rmult_le_pos; nra). nra. }
    assert (K2 : W2 * (t * t) * (p * (H - g * p)) < W2 * (t * t) * (g * (H * H - 2 * H * p - r * r))) by (apply Rmult_lt_compat_l; assumption).
    assert (K3 : p * (g * p * (1 - s * s)) <= p * (W2 * (t * t) * (H - g * p))) by (apply Rmult_le_compat_l; lra).
    assert (K4 : 0 < g * (W2 * (t * t) * (H * H - 2 * H * p - r * r) - p * p * (1 - s * s))) by lra. nra.
  - apply Rnot_le_lt. intros N. assert (N' : W2 * t * H <= p * s) by lra.
    assert (S0 : 0 < s) by (assert (0 < W2 * t * H) by (apply Rmult_lt_0_compat; nra); nra).
    set (k := p / H). assert (KP : p = k * H) by (unfold k; field; lra). assert (K0 : 0 < k) by (unfold k; apply Rdiv_lt_0_compat; lra).
    assert (KG : g * k <= g - 1).
    { apply (Rmult_le_reg_r H); [assumption|]. replace (g * k * H) with (g * (k * H)) by ring. rewrite <- KP, EP, HE. nra. }
    assert (K12 : k <= / 2) by nra.
    assert (C2K : c2 = g * k). { apply (Rmult_eq_reg_r H); [|lra]. rewrite CH. rewrite KP at 1. ring. }
    assert (N2 : W2 * t <= k * s). { apply (Rmult_le_reg_r H); [assumption|]. rewrite KP in N'. nra. }
    clear N N' QH CH. 
    assert (VV : W2 * v = W2 * s - W2 * t) by (unfold t; ring). assert (V1 : s * (W2 - k) <= W2 * v) by lra. assert (V2 : 0 < s * (W2 - k)) by nra.
    assert (V3 : s * (W2 - k) * (s * (W2 - k)) <= W2 * v * (W2 * v)) by (apply Rmult_le_compat; lra).
    assert (V4 : W2 * v * (W2 * v) <= W2 * (W2 - 1)) by nra.
    assert (T2 : W2 * t * (W2 * t) <= k * s * (k * s)) by (apply Rmult_le_compat; nra).
    assert (C21 : c2 < 1) by (rewrite C2K; lra || nra || (assert (g * k <= g - 1) by assumption; nra)).
    assert (Q2 : W2 * (c2 * (1 - s * s)) <= k * s * (k * s) * (1 - c2)).
    { assert (W2 * (c2 * (1 - s * s)) <= W2 * (W2 * (t * t) * (1 - c2))) by (apply Rmult_le_compat_l; lra).
      assert (W2 * t * (W2 * t) * (1 - c2) <= k * s * (k * s) * (1 - c2)) by (apply Rmult_le_compat_r; lra). lra. }
    assert (Q3 : c2 * W2 <= s * s * (c2 * W2 + k * k * (1 - c2))) by lra.
    assert (WK : 0 < (W2 - k) * (W2 - k)) by (apply Rmult_lt_0_compat; lra).
    assert (Q4 : c2 * W2 * ((W2 - k) * (W2 - k)) <= s * s * (c2 * W2 + k * k * (1 - c2)) * ((W2 - k) * (W2 - k))) by (apply Rmult_le_compat_r; lra).
    assert (C20 : 0 < c2) by (rewrite C2K; nra). assert (B0 : 0 <= c2 * W2 + k * k * (1 - c2)) by nra.
    assert (Q5 : s * (W2 - k) * (s * (W2 - k)) * (c2 * W2 + k * k * (1 - c2)) <= W2 * (W2 - 1) * (c2 * W2 + k * k * (1 - c2))) by (apply Rmult_le_compat_r; lra).
    assert (Q6 : W2 * (c2 * ((W2 - k) * (W2 - k))) <= W2 * ((W2 - 1) * (c2 * W2 + k * k * (1 - c2)))) by lra.
    assert (Q7 : c2 * ((W2 - k) * (W2 - k)) <= (W2 - 1) * (c2 * W2 + k * k * (1 - c2))) by (apply (Rmult_le_reg_l W2); lra).
    assert (Q8 : 0 <= c2 * (1 - 2 * k) - k * k * (1 - c2)).
    { rewrite C2K. replace (g * k * (1 - 2 * k) - k * k * (1 - g * k)) with (k * (g * (1 - k) * (1 - k) - k)) by ring.
      apply Rmult_le_pos; [lra|]. assert (1 <= g * (1 - k)) by lra. assert (1 - k <= g * (1 - k) * (1 - k)) by nra. lra. }
    assert (Q9 : 0 <= W2 * (c2 * (1 - 2 * k) - k * k * (1 - c2))) by (apply Rmult_le_pos; lra).
    assert (0 < k * k) by nra. lra.
Qed.

(** Beyond the outermost speeds the quadratic of the speeds is not negative. *)
Lemma srhd_outside c2 vv v s : 0 < c2 < 1 -> 0 <= vv < 1 -> v * v <= vv ->
  let k0 := sqrt (c2 * (1 - vv) * (1 - vv * c2 - v * v * (1 - c2))) in
  (v * (1 - c2) + k0) / (1 - vv * c2) <= s \/ s <= (v * (1 - c2) - k0) / (1 - vv * c2) ->
  c2 * (1 - vv) * (1 - s * s) <= (s - v) * (s - v) * (1 - c2).
Proof.
  intros HC HV VN k0 HS. destruct (srhd_speed_bounds c2 vv v HC HV VN) as (KP & D & _ & _). fold k0 in KP.
  assert (R2 : 0 <= c2 * (1 - vv) * (1 - vv * c2 - v * v * (1 - c2))).
  { unfold k0 in KP. destruct (Rle_dec 0 (c2 * (1 - vv) * (1 - vv * c2 - v * v * (1 - c2)))); [assumption|]. rewrite sqrt_neg_0 in KP by lra. lra. }
  assert (KK : k0 * k0 = c2 * (1 - vv) * (1 - vv * c2 - v * v * (1 - c2))) by (apply sqrt_sqrt; assumption).
  assert (X : k0 * k0 <= ((1 - vv * c2) * s - v * (1 - c2)) * ((1 - vv * c2) * s - v * (1 - c2))).
  { destruct HS as [HS|HS].
    - assert (v * (1 - c2) + k0 <= s * (1 - vv * c2)). { apply (Rmult_le_compat_r (1 - vv * c2)) in HS; [|lra]. unfold Rdiv in HS. rewrite Rmult_assoc, Rinv_l, Rmult_1_r in HS by lra. exact HS. }
      apply Rmult_le_compat; lra.
    - assert (s * (1 - vv * c2) <= v * (1 - c2) - k0). { apply (Rmult_le_compat_r (1 - vv * c2)) in HS; [|lra]. unfold Rdiv in HS. rewrite (Rmult_assoc _ (/ _)), Rinv_l, Rmult_1_r in HS by lra. exact HS. }
      replace (((1 - vv * c2) * s - v * (1 - c2)) * ((1 - vv * c2) * s - v * (1 - c2))) with ((v * (1 - c2) - (1 - vv * c2) * s) * (v * (1 - c2) - (1 - vv * c2) * s)) by ring.
      apply Rmult_le_compat; lra. }
  rewrite KK in X. apply (Rmult_le_reg_l (1 - vv * c2)); [assumption|].
  enough (E : ((1 - vv * c2) * s - v * (1 - c2)) * ((1 - vv * c2) * s - v * (1 - c2)) - c2 * (1 - vv) * (1 - vv * c2 - v * v * (1 - c2)) =
     (1 - vv * c2) * ((s - v) * (s - v) * (1 - c2) - c2 * (1 - vv) * (1 - s * s))) by lra. ring.
Qed.

Lemma srhd_state_facts P n g : relativistic P g -> unit_norm n ->
  let W := lorentz_factor P in let H := enthalpy_density P g in let v := beta_along P n in
  0 < W /\ W * W = 1 + gamma_beta_squared P /\ 1 <= W * W /\ project n (u1 P) (u2 P) (u3 P) = W * v /\ W * W * (v * v) <= W * W - 1 /\ 0 < H /\
  rho P * rho P + 2 * H * pre P < H * H.
Proof.
  intros (Hr & Hp & Hg1 & Hg2) Hn W H v. pose proof (gamma_beta_nonneg P) as U.
  assert (W0 : 0 < W) by (apply sqrt_lt_R0; lra). assert (WW : W * W = 1 + gamma_beta_squared P) by (apply sqrt_sqrt; lra).
  destruct (speed_range P n Hn) as [_ VN]. fold v in VN.
  assert (HE : H = rho P + g * (pre P / (g - 1))) by (unfold H, enthalpy_density; field; lra).
  set (e := pre P / (g - 1)) in *. assert (EP : pre P = (g - 1) * e) by (unfold e; field; lra). assert (E0 : 0 < e) by (unfold e; apply Rdiv_lt_0_compat; lra).
  split; [assumption|]. split; [assumption|]. split; [lra|]. split; [unfold v, beta_along; fold W; field; lra|]. split.
  - replace (W * W - 1) with (gamma_beta_squared P) by lra. assert (W * W * (v * v) <= W * W * (gamma_beta_squared P / (1 + gamma_beta_squared P))) by (apply Rmult_le_compat_l; nra).
    replace (W * W * (gamma_beta_squared P / (1 + gamma_beta_squared P))) with (gamma_beta_squared P) in H0 by (rewrite WW; field; lra). assumption.
  - clearbody H e. split; [nra|]. rewrite EP, HE. assert (0 < rho P * e) by nra. assert (0 <= g * (2 - g) * (e * e)) by (apply Rmult_le_pos; nra). nra.
Qed.

Lemma srhd_one_sided P n g s : relativistic P g -> unit_norm n ->
  (snd (srhd_wavespeeds P n g) <= s -> s < 1 -> srhd_cone (sub5 (scl5 s (srhd_conserved P g)) (srhd_physical_flux P n g))) /\
  (s <= fst (srhd_wavespeeds P n g) -> -1 < s -> srhd_cone (sub5 (srhd_physical_flux P n g) (scl5 s (srhd_conserved P g)))).
Proof.
  intros HP Hn. destruct (srhd_state_facts P n g HP Hn) as (W0 & WW & W1 & PW & WV & H0 & HK). pose proof HP as (Hr & Hp & Hg1 & Hg2).
  pose proof (sound_speed_below_light _ _ HP) as C. pose proof (speed_range P n Hn) as [V VN].
  pose proof (signal_speeds_below_light P n g HP Hn) as SP.
  pose proof (srhd_outside (srhd_sound_speed_squared P g) _ (beta_along P n) s C V VN) as OUT. cbv zeta in OUT.
  assert (VV1 : 1 - gamma_beta_squared P / (1 + gamma_beta_squared P) = / (lorentz_factor P * lorentz_factor P)) by (rewrite WW; field; pose proof (gamma_beta_nonneg P); lra).
  unfold srhd_wavespeeds in *. cbv zeta in *. cbn [fst snd] in *.
  set (W := lorentz_factor P) in *. set (H := enthalpy_density P g) in *. set (v := beta_along P n) in *.
  assert (QQ : srhd_sound_speed_squared P g * (1 - gamma_beta_squared P / (1 + gamma_beta_squared P)) * (1 - s * s) <= (s - v) * (s - v) * (1 - srhd_sound_speed_squared P g) ->
     g * pre P / H * (1 - s * s) <= W * W * ((s - v) * (s - v)) * (1 - g * pre P / H)).
  { rewrite VV1. change (srhd_sound_speed_squared P g) with (g * pre P / H). intros Q. apply (Rmult_le_compat_l (W * W)) in Q; [|lra].
    replace (W * W * (g * pre P / H * / (W * W) * (1 - s * s))) with (g * pre P / H * (1 - s * s)) in Q by (field; lra). lra. }
  assert (CONE : forall D m1 m2 m3 tau K E, 0 < D -> tau + D = E -> 0 < E -> 0 < K -> E * E - D * D - (m1 * m1 + m2 * m2 + m3 * m3) = K -> srhd_cone (V5 D m1 m2 m3 tau)).
  { intros D m1 m2 m3 tau K E HD <- HE HK' EQ. unfold srhd_cone, momentum2. cbn [c0 c1 c2 c3 c4]. repeat split; lra. }
  assert (NV : forall t p, 
     (t * u1 P + p * n1 n) * (t * u1 P + p * n1 n) + (t * u2 P + p * n2 n) * (t * u2 P + p * n2 n) + (t * u3 P + p * n3 n) * (t * u3 P + p * n3 n) =
     t * t * (W * W - 1) + 2 * t * p * (W * v) + p * p).
  { intros t p. unfold unit_norm in Hn. transitivity (t * t * gamma_beta_squared P + 2 * t * p * project n (u1 P) (u2 P) (u3 P) + p * p * (n1 n * n1 n + n2 n * n2 n + n3 n * n3 n)).
    - unfold project, gamma_beta_squared. ring.
    - rewrite Hn, PW. replace (gamma_beta_squared P) with (W * W - 1) by lra. ring. }
  assert (DH : forall x, rho P * W * x * specific_enthalpy P g = W * H * x) by (intros x; unfold specific_enthalpy; fold H; field; lra).
  assert (DHW : rho P * W * specific_enthalpy P g * W = W * W * H) by (unfold specific_enthalpy; fold H; field; lra).
  unfold srhd_physical_flux, srhd_flux, flux5, srhd_conserved. cbv zeta. fold W v. unfold sub5, scl5. cbn [c0 c1 c2 c3 c4]. rewrite !DH, !DHW.
  set (p := pre P) in *. set (r := rho P) in *.
  assert (CORE : forall s' v', s' * s' < 1 -> 0 < s' - v' -> s' * s' = s * s -> v' * v' = v * v -> (s' - v') * (s' - v') = (s - v) * (s - v) ->
     g * p / H * (1 - s * s) <= W * W * ((s - v) * (s - v)) * (1 - g * p / H) ->
     0 < W * W * ((s - v) * (s - v)) * (H * H - 2 * H * p - r * r) - p * p * (1 - s * s) /\ 0 < W * W * H * (s' - v') - p * s').
  { intros s' v' S1 T ES EV ET Q. rewrite <- ES, <- ET in *. apply (srhd_core r p g (W * W) v' s'); try assumption. rewrite EV. assumption. }
  split; intros HS HB.
  - specialize (QQ (OUT (or_introl HS))). destruct (CORE s v ltac:(nra) ltac:(lra) eq_refl eq_refl eq_refl QQ) as [K1 K2].
    apply (CONE _ _ _ _ _ _ (W * W * H * (s - v) - p * s)) with (4 := K1); [assert (0 < r * W) by nra; nra|ring|exact K2|].
    assert (A1 : forall x k, s * (W * H * x) - (v * (W * H * x) + p * k) = ((s - v) * W * H) * x + - p * k) by (intros; ring). rewrite !A1, NV. ring.
  - specialize (QQ (OUT (or_intror HS))). destruct (CORE (- s) (- v) ltac:(nra) ltac:(lra) ltac:(ring) ltac:(ring) ltac:(ring) QQ) as [K1 K2].
    apply (CONE _ _ _ _ _ _ (W * W * H * (- s - - v) - p * - s)) with (4 := K1); [assert (0 < r * W) by nra; nra|ring|exact K2|].
    assert (A1 : forall x k, v * (W * H * x) + p * k - s * (W * H * x) = ((v - s) * W * H) * x + p * k) by (intros; ring). rewrite !A1, NV. ring.
Qed.
Lemma srhd_state_in_cone P g : relativistic P g -> srhd_cone (srhd_conserved P g).
Proof.
  intros HP. assert (Hn : unit_norm (make_unit_vector 1 0 0)) by (unfold unit_norm; simpl; ring).
  destruct (srhd_state_facts P _ g HP Hn) as (W0 & WW & W1 & PW & WV & H0 & HK). pose proof HP as (Hr & Hp & _).
  unfold srhd_conserved, srhd_cone, momentum2. cbv zeta. cbn [c0 c1 c2 c3 c4]. set (W := lorentz_factor P) in *. set (H := enthalpy_density P g) in *.
  assert (DH : forall x, rho P * W * x * specific_enthalpy P g = W * H * x) by (intros x; unfold specific_enthalpy; fold H; field; lra).
  assert (DHW : rho P * W * specific_enthalpy P g * W = W * W * H) by (unfold specific_enthalpy; fold H; field; lra).
  rewrite !DH, !DHW. set (p := pre P) in *. set (r := rho P) in *. split; [nra|]. assert (HP2 : 2 * p < H) by nra.
  split; [nra|].
  replace (W * H * u1 P * (W * H * u1 P) + W * H * u2 P * (W * H * u2 P) + W * H * u3 P * (W * H * u3 P)) with (W * H * (W * H) * (W * W - 1)) by (rewrite WW; unfold gamma_beta_squared; ring).
  assert (0 < W * W * (H * H - 2 * H * p - r * r) + p * p) by nra.
  enough ((W * W * H - p - r * W + r * W) * (W * W * H - p - r * W + r * W) - (r * W * (r * W) + W * H * (W * H) * (W * W - 1)) = W * W * (H * H - 2 * H * p - r * r) + p * p) by lra. ring.
Qed.
Lemma fan_below_light Al Ar : -1 < fst Al -> -1 < fst Ar -> snd Al < 1 -> snd Ar < 1 -> fan_plus Al Ar < 1 /\ -1 < fan_minus Al Ar.
Proof.
  intros A B C D. unfold fan_plus, fan_minus, smax, smin. destruct (Rlt_dec (snd Al) (snd Ar)), (Rlt_dec (fst Ar) (fst Al)); (destruct (Rlt_dec 0 _); destruct (Rlt_dec _ 0)); lra.
Qed.
Theorem srhd_hlle_update_admissible Pl P Pr n g lambda : relativistic Pl g -> relativistic P g -> relativistic Pr g -> unit_norm n -> 0 <= lambda ->
  lambda * (fan_plus (srhd_wavespeeds Pl n g) (srhd_wavespeeds P n g) - fan_minus (srhd_wavespeeds P n g) (srhd_wavespeeds Pr n g)) <= 1 ->
  srhd_cone (updated (srhd_conserved P g) (srhd_hlle Pl P n g) (srhd_hlle P Pr n g) lambda).
Proof.
  intros HL HP HR Hn L0 L1.
  assert (SP : forall Q, relativistic Q g -> -1 < fst (srhd_wavespeeds Q n g) /\ snd (srhd_wavespeeds Q n g) < 1).
  { intros Q HQ. pose proof (signal_speeds_below_light Q n g HQ Hn) as S. destruct (srhd_wavespeeds Q n g). cbn [fst snd]. lra. }
  pose proof (SP _ HL) as [SL1 SL2]. pose proof (SP _ HP) as [S1 S2]. pose proof (SP _ HR) as [SR1 SR2].
  destruct (fan_below_light _ _ S1 SR1 S2 SR2) as [FR1 FR2]. destruct (fan_below_light _ _ SL1 S1 SL2 S2) as [FL1 FL2].
  unfold srhd_hlle. cbv zeta. apply (update_in_cone srhd_cone srhd_cone_convex); try assumption.
  - apply srhd_state_in_cone; assumption.
  - intros s Hs B. apply (srhd_one_sided P n g s HP Hn); [exact Hs|]. destruct B; lra.
  - intros s Hs B. apply (srhd_one_sided P n g s HP Hn); [exact Hs|]. destruct B; lra.
  - apply (srhd_one_sided Pl n g _ HL Hn); [apply fan_bounds|assumption].
  - apply (srhd_one_sided Pr n g _ HR Hn); [apply fan_bounds|assumption].
  - apply srhd_speeds_open; assumption.
  - apply srhd_speeds_open; assumption.
Qed.

(** Two streams receding from a cell at rest at three times the speed of sound: physical for steps up to 1/2
    (the premise with speeds 1 and -1), but not for every step. *)
Lemma sqrt_1' x : x = 1 -> sqrt x = 1. Proof. intros ->. apply sqrt_1. Qed.
Example positivity_example :
  let g := 5/3 in let st u := Prim (5/3) u 0 0 1 in let n := make_unit_vector 1 0 0 in
  euler_wavespeeds (st 0) n g = (-1, 1) /\
  (forall lambda, 0 <= lambda <= 1/2 ->
    physical (euler_recover (updated (euler_conserved (st 0) g) (euler_hlle (st (-3)) (st 0) n g) (euler_hlle (st 0) (st 3) n g) lambda) g 0)) /\
  c0 (updated (euler_conserved (st 0) g) (euler_hlle (st (-3)) (st 0) n g) (euler_hlle (st 0) (st 3) n g) 1) <= 0.
Proof.
  cbv zeta. set (g := 5/3). set (n := make_unit_vector 1 0 0).
  assert (W : forall u, euler_wavespeeds (Prim (5/3) u 0 0 1) n g = (u - 1, u + 1)).
  { intros u. unfold euler_wavespeeds, euler_sound_speed_squared. cbn [pre rho]. rewrite sqrt_1' by (unfold g; lra). unfold velocity_along, project, n. cbn [n1 n2 n3 u1 u2 u3 make_unit_vector]. f_equal; ring. }
  assert (OK : forall u, euler_ok (Prim (5/3) u 0 0 1) g) by (intros u; unfold euler_ok, g; simpl; lra).
  assert (N : unit_norm n) by (unfold unit_norm, n; simpl; ring).
  assert (FP : fan_plus (-3 - 1, -3 + 1) (0 - 1, 0 + 1) = 1).
  { unfold fan_plus, smax. cbn [fst snd]. destruct (Rlt_dec (-3 + 1) (0 + 1)); [|lra]. destruct (Rlt_dec 0 (0 + 1)); lra. }
  assert (FM : fan_minus (0 - 1, 0 + 1) (3 - 1, 3 + 1) = -1).
  { unfold fan_minus, smin. cbn [fst snd]. destruct (Rlt_dec (3 - 1) (0 - 1)); [lra|]. destruct (Rlt_dec (0 - 1) 0); lra. }
  assert (FM' : fan_minus (-3 - 1, -3 + 1) (0 - 1, 0 + 1) = -4).
  { unfold fan_minus, smin. cbn [fst snd]. destruct (Rlt_dec (0 - 1) (-3 - 1)); [lra|]. destruct (Rlt_dec (-3 - 1) 0); lra. }
  assert (FP' : fan_plus (0 - 1, 0 + 1) (3 - 1, 3 + 1) = 4).
  { unfold fan_plus, smax. cbn [fst snd]. destruct (Rlt_dec (0 + 1) (3 + 1)); [|lra]. destruct (Rlt_dec 0 (3 + 1)); lra. }
  split; [rewrite W; f_equal; ring|]. split.
  - intros lambda L. apply (euler_hlle_update_physical _ _ _ n g lambda); auto; try lra. rewrite !W, FP, FM. lra.
  - unfold euler_hlle. cbv zeta. rewrite !W. fold (fan_plus (-3 - 1, -3 + 1) (0 - 1, 0 + 1)). fold (fan_minus (-3 - 1, -3 + 1) (0 - 1, 0 + 1)).
    fold (fan_plus (0 - 1, 0 + 1) (3 - 1, 3 + 1)). fold (fan_minus (0 - 1, 0 + 1) (3 - 1, 3 + 1)). rewrite FP, FM, FP', FM'.
    unfold updated, hlle5, hlle_component, sub5, scl5, euler_flux, flux5, euler_conserved, velocity_along, project, n. cbv zeta. cbn [c0 c1 c2 c3 c4 rho u1 u2 u3 n1 n2 n3 make_unit_vector]. unfold g. lra.
Qed.

Print Assumptions euler_hlle_update_physical.
Print Assumptions iso_hlle_update_physical.
Print Assumptions srhd_hlle_update_admissible.
