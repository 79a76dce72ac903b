(** The real numbers as an instance of [num], and derivatives of sums. *)
From Coq Require Import Reals Lra.
From Verif Require Import Base Num.

Definition R_zerob (x : R) : bool := if Req_EM_T x 0%R then true else false.
Definition R_num : num R := mkNum _ 0%R 1%R Rplus Rmult Rminus Ropp R_zerob.

Lemma R_ring_laws : ring_laws R_num.
Proof.
  split.
  - exact RTheory.
  - intros x. cbn. unfold R_zerob. destruct (Req_EM_T x 0%R); split; intros; auto; discriminate.
  - exact R1_neq_R0.
Qed.

Lemma derive_const c x : derivable_pt_lim (fun _ => c) x 0%R.
Proof. apply derivable_pt_lim_const. Qed.

Lemma derive_sum n (f : nat -> R -> R) (d : nat -> R) x :
  (forall i, i < n -> derivable_pt_lim (f i) x (d i)) ->
  derivable_pt_lim (fun v => nsum R_num n (fun i => f i v)) x (nsum R_num n d).
Proof.
  induction n as [|n IH]; intros H; cbn [nsum].
  - apply derive_const.
  - apply (derivable_pt_lim_plus (fun v => nsum R_num n (fun i => f i v)) (f n)); [apply IH; intros; apply H; lia|apply H; lia].
Qed.

Lemma derive_ext (f g : R -> R) x l : (forall v, f v = g v) -> derivable_pt_lim f x l -> derivable_pt_lim g x l.
Proof. intros E H eps He. destruct (H eps He) as (d & Hd). exists d. intros h Hn Hh. rewrite <- !E. now apply Hd. Qed.
