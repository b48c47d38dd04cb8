(** Lemmas for C52: algebra of the two-body state. *)
From Coq Require Import Reals Lra Lia Psatz.
From Coquelicot Require Import Coquelicot.
From Verif Require Import Base TwoBodyModel.
Open Scope R_scope.

(** A bound orbit of two bodies of positive mass. *)
Definition bound (o : orbit) : Prop := 0 < sep o /\ 0 < mtot o /\ 0 < ratio o /\ 0 <= ecc o < 1.

Section Orbit.
Context (o : orbit) (E : R).
Hypothesis (HB : bound o).
Let a := sep o.
Let M := mtot o.
Let q := ratio o.
Let e := ecc o.
Let w := omega_of o.
Let k := sqrt (1 - e * e).
Let c := cos E.
Let s := sin E.

Lemma facts : 0 < a /\ 0 < M /\ 0 < q /\ 0 <= e < 1.
Proof. exact HB. Qed.
Lemma omega_form : w = sqrt (M / a / a / a).
Proof. unfold w, omega_of. destruct HB as (H1 & _). destruct (Req_EM_T (sep o) 0); [lra|reflexivity]. Qed.
Lemma omega_facts : 0 < w /\ w * w * (a * a * a) = M.
Proof.
  destruct facts as (H1 & H2 & H3 & H4). rewrite omega_form.
  assert (P : 0 < M / a / a / a) by (repeat apply Rdiv_lt_0_compat; assumption).
  split; [apply sqrt_lt_R0; exact P|]. rewrite sqrt_sqrt by lra. field. lra.
Qed.
Lemma k_facts : 0 < k /\ k * k = 1 - e * e /\ k <= 1.
Proof.
  destruct facts as (_ & _ & _ & H4). assert (0 < 1 - e * e) by nra. assert (P : 0 < k) by (apply sqrt_lt_R0; assumption).
  assert (Q : k * k = 1 - e * e) by (apply sqrt_sqrt; lra). split; [exact P|]. split; [exact Q|]. nra.
Qed.
Lemma trig : s * s = 1 - c * c.
Proof. pose proof (sin2_cos2 E) as H. unfold Rsqr in H. unfold s, c. lra. Qed.
Lemma n_pos : 0 < 1 - e * c.
Proof. destruct facts as (_ & _ & _ & H4). pose proof (COS_bound E) as CB. fold c in CB. nra. Qed.

Let st := state_of o E.
Let rx := a * (c - e).
Let ry := a * (s * k).
Let ux := - a * w / (1 - e * c) * s.
Let uy := a * w / (1 - e * c) * c * k.
(** Both bodies in terms of the relative orbit. *)
Lemma state_form : st = TwoBody (Body (M / (1 + q)) (q / (1 + q) * rx) (q / (1 + q) * ry) (q / (1 + q) * ux) (q / (1 + q) * uy))
  (Body (M * (q / (1 + q))) (- (1 / (1 + q)) * rx) (- (1 / (1 + q)) * ry) (- (1 / (1 + q)) * ux) (- (1 / (1 + q)) * uy)).
Proof.
  destruct facts as (H1 & H2 & H3 & H4). pose proof n_pos. unfold st, state_of. fold a M q e w c s. fold k. unfold rx, ry, ux, uy.
  f_equal; f_equal; field; repeat split; lra.
Qed.
Lemma relative_distance : rx * rx + ry * ry = (a * (1 - e * c)) * (a * (1 - e * c)).
Proof.
  unfold rx, ry. pose proof trig as T. destruct k_facts as (_ & K & _).
  transitivity (a * a * ((c - e) * (c - e) + (s * s) * (k * k))); [ring|]. rewrite T, K. ring.
Qed.
Lemma relative_speed : ux * ux + uy * uy = M / a * ((1 + e * c) / (1 - e * c)).
Proof.
  pose proof n_pos as N. pose proof trig as T. destruct k_facts as (_ & K & _). destruct omega_facts as (W0 & W). destruct facts as (H1 & _).
  transitivity (w * w * (a * a * a) / a * ((s * s + c * c * (k * k)) / ((1 - e * c) * (1 - e * c)))); [unfold ux, uy; field; lra|].
  rewrite W, T, K. field. lra.
Qed.
Lemma relative_area : rx * uy - ry * ux = a * a * w * k.
Proof.
  pose proof n_pos as N. pose proof trig as T. transitivity (a * a * w * k * ((c * c - e * c + s * s) / (1 - e * c))); [unfold rx, ry, ux, uy; field; lra|].
  rewrite T. field. lra.
Qed.
Lemma relative_radial : rx * ux + ry * uy = a * a * w * e * s.
Proof.
  pose proof n_pos as N. pose proof trig as T. destruct k_facts as (_ & K & _).
  transitivity (a * a * w * s * ((- (c - e) + c * (k * k)) / (1 - e * c))); [unfold rx, ry, ux, uy; field; lra|]. rewrite K. field. lra.
Qed.
End Orbit.
