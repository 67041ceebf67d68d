From Coq Require Import Reals List Bool String Lra Lia.
From Coquelicot Require Import Coquelicot.
From Verif Require Import Base CmpModel CmpSpec CmpProofs.
Import ListNotations.
Local Open Scope R_scope.

(* C244: on interlaced meshes the compensation divides by the Fourier transform of the kernel, so that the field that was convolved comes back *)
Theorem C244_restore : forall name k, kernel name k -> exists f, get_compensation true name = Ok f /\
  forall w v, (forall i, (i < 3)%nat -> - PI <= w i <= PI) -> f w (scale (transform k (w 0%nat) * transform k (w 1%nat) * transform k (w 2%nat)) v) = v.
Proof. exact restore. Qed.
Print Assumptions C244_restore.
Example C244_example : kernel "tsc" tsc /\ - PI <= PI / 2 <= PI /\ transform tsc 0 = 1.
Proof.
  pose proof PI_RGT_0. split; [constructor|]. split; [lra|]. replace 0 with (2 * 0) by ring. rewrite transform_tsc. unfold sinc. destruct (Req_EM_T 0 0); [ring|contradiction].
Qed.
Theorem C244_other : forall interlaced name, (forall k, ~ kernel name k) -> get_compensation interlaced name = Err ValueError.
Proof. exact other. Qed.
Print Assumptions C244_other.
Example C244_other_ex : forall k, ~ kernel "nnb" k.
Proof. intros k H. inversion H. Qed.

(* C245: without interlacing the compensation makes the shot noise white: the average power of a particle anywhere in a cell is one at all frequencies *)
Theorem C245_white : forall name k, kernel name k -> exists f, get_compensation false name = Ok f /\
  forall w, average3 (fun u0 u1 u2 => norm2 (f w (particle3 k w u0 u1 u2))) = 1.
Proof. exact white. Qed.
Print Assumptions C245_white.
Theorem C245_power : forall name k, kernel name k -> exists f, get_compensation false name = Ok f /\
  forall w v, norm2 (f w v) = norm2 v / (shot_noise k (w 0%nat) * shot_noise k (w 1%nat) * shot_noise k (w 2%nat)).
Proof. exact comp_noise. Qed.
Print Assumptions C245_power.
(* without compensation it is not white: at the Nyquist frequency a third is left *)
Example C245_example : kernel "cic" cic /\ shot_noise cic PI = 1 / 3.
Proof.
  split; [constructor|]. replace PI with (2 * (PI / 2)) by field. rewrite noise_cic, sin_PI2. field.
Qed.
