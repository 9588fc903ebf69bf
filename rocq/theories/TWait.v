(** Theorems about waiting for workers (properties C52, C53). *)
From Verif Require Import Base MWait PWait.

(** * C52: parallelContext.Wait *)

(** For every number of workers with any amount of work, and every interleaving:
    when Wait has returned, all workers and its goroutine have ended; an error means
    that the context was cancelled; no error means that every worker has done all
    its work. *)
Theorem C52_wait_safe : forall ns cancelled s r,
  steps wstep (wstart (map Run ns) cancelled) s -> wc s = CRet r ->
  forallb isDone (ww s) = true /\ wh s = HEnd /\ (r = true -> wcancel s = true) /\
  (r = false -> forall w, In w (ww s) -> w = Full).
Proof.
  intros ns x s r H E. apply wgood_steps in H; [|apply Forall_forall; intros w Hw; apply in_map_iff in Hw; destruct Hw as (n & <- & _); eauto].
  destruct H as (G1 & G2 & G3 & G4 & G5 & G6). assert (wh s = HEnd) as Hh by (apply G2; eauto).
  assert (forallb isDone (ww s) = true) as D by (apply G1; rewrite Hh; discriminate).
  split; [exact D|]. split; [exact Hh|]. split.
  - intros ->. apply G3. now apply G5.
  - intros -> w Hw. assert (wabort s = false) as A by (destruct (wabort s); [destruct (G3 eq_refl) as (_ & _ & N); congruence|reflexivity]).
    specialize (G6 A). rewrite forallb_forall in D. specialize (D w Hw). destruct w; [discriminate|reflexivity|].
    exfalso. assert (existsb early (ww s) = true) by (apply existsb_exists; eauto). congruence.
Qed.
Print Assumptions C52_wait_safe.

(** No deadlock: a reachable state in which the program cannot go on (only a
    cancellation could still come from outside) is one where Wait has returned and
    every goroutine has ended. *)
Theorem C52_wait_live : forall ns cancelled s,
  steps wstep (wstart (map Run ns) cancelled) s -> (forall t, wstep s t -> wcancels s t) ->
  forallb isDone (ww s) = true /\ wh s = HEnd /\ exists r, wc s = CRet r.
Proof.
  intros ns x s H. apply wprogress. apply (wgood_steps (map Run ns) x); [|exact H].
  apply Forall_forall; intros w Hw; apply in_map_iff in Hw; destruct Hw as (n & <- & _); eauto.
Qed.
Print Assumptions C52_wait_live.

(** And no execution is infinite. *)
Theorem C52_wait_terminates : well_founded (fun t s => wstep s t).
Proof. exact (measure_wf wmeasure wstep wstep_measure). Qed.
Print Assumptions C52_wait_terminates.

(** A cancelled run: one of two workers sees the abort flag, Wait returns ErrAborted. *)
Example C52_example : exists s, steps wstep (wstart (map Run [1%nat; 0%nat]) false) s /\ wc s = CRet true /\ ww s = [Early; Full].
Proof.
  exists (Wait [Early; Full] HEnd (CRet true) true true). split; [|split; reflexivity].
  eapply steps_next; [|apply W_recv]. eapply steps_next; [|apply W_group; reflexivity].
  eapply steps_next; [|apply (W_full [Early] [])]. eapply steps_next; [|apply (W_early [] 1%nat [Run 0])].
  eapply steps_next; [|apply W_ctx]. eapply steps_next; [|apply W_cancel]. apply steps_refl.
Qed.

(** * C53: cancelling New *)

(** New does not always return: with one worker and two layers, the context is
    cancelled while the worker handles the first layer, the worker returns, and
    the decoder waits forever to hand over the second layer. *)
Theorem C53_cancel_refuted : exists workers layers s,
  (1 <= workers)%nat /\ steps bstep (bstart workers layers true false) s /\ (forall t, ~ bstep s t) /\ ~ breturned s.
Proof.
  exists 1%nat, 2%nat, (Canv [BEnd] (MDecode 1 true) true). split; [lia|]. split; [|split].
  - eapply steps_next; [|apply (B_error [] [])]. eapply steps_next; [|apply B_cancel].
    eapply steps_next; [|apply (B_send [] [])]. apply steps_refl.
  - intros t H. inversion H; try discriminate; subst;
      repeat match goal with E : ?l1 ++ _ :: _ = [BEnd] |- _ => destruct l1 as [|? [|? ?]]; discriminate end.
  - unfold breturned. cbn. intros [(r & E)|E]; discriminate.
Qed.
Print Assumptions C53_cancel_refuted.

(** Everything else is fine: executions are finite, and they end with New's
    return, all workers having ended, unless the context was cancelled before the
    last layer was handed over. *)
Theorem C53_return_partial : forall workers layers ok cancelled s, (1 <= workers)%nat ->
  steps bstep (bstart workers layers ok cancelled) s -> (forall t, bstep s t -> bcancels s t) ->
  forallb bDone (bw s) = true /\ (breturned s \/ bcancel s = true /\ exists k ok, bm s = MDecode (S k) ok).
Proof.
  intros n k ok x s Hn H. apply bprogress. revert H. apply steps_inv; [exact bgood_step|]. now apply bgood_start.
Qed.
Print Assumptions C53_return_partial.
Theorem C53_terminates : well_founded (fun t s => bstep s t).
Proof. exact (measure_wf bmeasure bstep bstep_measure). Qed.
Print Assumptions C53_terminates.
Example C53_example : exists s, steps bstep (bstart 2 1 true false) s /\ breturned s /\ forallb bDone (bw s) = true.
Proof.
  exists (Canv [BEnd; BEnd] (MWait HEnd (CRet false)) false). split; [|split; [left; exists false; reflexivity|reflexivity]].
  eapply steps_next; [|apply B_complete]. eapply steps_next; [|apply B_group; reflexivity].
  eapply steps_next; [|apply (B_drain [] [BEnd]); reflexivity]. eapply steps_next; [|apply (B_drain [BIdle] []); reflexivity].
  eapply steps_next; [|apply B_close]. eapply steps_next; [|apply (B_store [] [BIdle])].
  eapply steps_next; [|apply (B_send [] [BIdle])]. apply steps_refl.
Qed.
