(** Stores that run into undefined behaviour. *)
From Verif Require Import Base BaseFacts Tensor_Model.

Lemma run_stores_ub {D} (t : tensor D) l ops a rv :
  data t = Some l -> (forall b rw, In (b, rw) ops -> rw <> Fatal) -> In (a, rv) ops -> rv = UB \/ length l <= a -> run_stores t ops = UB.
Proof.
  intros Ed Hall Hin Hbad. unfold run_stores. destruct ops as [|op ops'] eqn:Eo; [contradiction|]. unfold buffer. rewrite Ed. cbn [bind]. rewrite <- Eo in *. clear op ops' Eo Ed.
  destruct (exec ops l) as [l'| |] eqn:Ex; [| |reflexivity]; exfalso.
  - destruct (exec_with_ok_inv Ex _ _ Hin) as [Hlt [v Hv]]. destruct Hbad as [Hu|Hle]; [congruence|lia].
  - clear Hin Hbad. revert l Ex Hall. induction ops as [|[b rw] ops IH]; intros l Ex Hall; cbn in Ex; [discriminate|].
    destruct rw as [v| |]; cbn in Ex; [|now apply (Hall b Fatal (or_introl eq_refl))|discriminate].
    destruct (store_with _ l b v) as [l1| |] eqn:Es; cbn in Ex; [| |discriminate].
    + apply (IH l1 Ex). intros c rw Hc. apply (Hall c rw). now right.
    + unfold store_with in Es. destruct (nth_error l b); discriminate.
Qed.
