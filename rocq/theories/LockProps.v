(** C34: lock exclusion. *)
From Verif Require Import Base LockModel LockSpec LockProof.
Open Scope nat_scope.

(** In every execution the flock of a file is with one process. *)
Theorem C34_flock_exclusive : forall execOf l s, run execOf init l = Some s -> forall p q i, flockOf (pcs s p) = Some i -> flockOf (pcs s q) = Some i -> p = q.
Proof. intros execOf l s R p q i. apply lock_unique. exact (run_inv execOf l init s init_inv R). Qed.
Print Assumptions C34_flock_exclusive.

(** When no file is removed while another process is between opening and locking it, at most one process holds the lock with a descriptor, also when
    processes die at any point. *)
Theorem C34_quiet_partial : forall execOf l s, along execOf quietStep init l -> run execOf init l = Some s -> forall p q, holdsFd s p -> holdsFd s q -> p = q.
Proof. intros execOf l s Q R p q. destruct (run_quiet execOf l init s init_inv init_link Q R) as (F & L). exact (quiet_unique s p q F L). Qed.
Print Assumptions C34_quiet_partial.

(** When further nobody dies with the lock and those who share the lock by exec id release before the one with the descriptor, all holders have the
    same exec id. *)
Theorem C34_orderly_partial : forall execOf l s, along execOf (orderlyStep execOf) init l -> run execOf init l = Some s -> forall p q, holds s p -> holds s q -> execOf p = execOf q.
Proof. intros execOf l s Q R p q. destruct (run_orderly execOf l init s init_inv init_link (init_exec execOf) Q R) as (F & L & X). exact (orderly_exec execOf s p q F L X). Qed.
Print Assumptions C34_orderly_partial.

(** A process alone gets a lock nobody has, also one left by a process that died. *)
Theorem C34_available : forall execOf l s p, run execOf init l = Some s -> pcs s p = Idle -> (forall i, link s = Some i -> owner s i = None) ->
  exists s' i, run execOf s [AOpen p; AFlock p; AWrite p] = Some s' /\ pcs s' p = Held i /\ link s' = Some i /\ owner s' i = Some p /\ content s' i = Some (execOf p).
Proof.
  intros execOf l s p R E H. pose proof (run_inv execOf l init s init_inv R) as [_ F2 _ _]. cbn [run step]. rewrite E. destruct (link s) as [i|] eqn:EL.
  - specialize (H i eq_refl). cbn. rewrite upd_same, H. cbn. rewrite upd_same. cbn. eexists. exists i. split; [reflexivity|]. cbn. rewrite !upd_same. auto.
  - cbn. rewrite upd_same. destruct (F2 (next s) (le_n _)) as (O & _). rewrite O. cbn. rewrite upd_same. cbn. eexists. exists (next s). split; [reflexivity|]. cbn. rewrite !upd_same. auto.
Qed.
Print Assumptions C34_available.

(** A lock held by another exec id is refused and one held by the same exec id is shared; the one who holds it keeps it. *)
Theorem C34_taken : forall execOf s p q i e, pcs s p = Idle -> pcs s q = Held i -> link s = Some i -> owner s i = Some q -> content s i = Some e ->
  exists s', run execOf s [AOpen p; AFlock p; ARead p] = Some s' /\ pcs s' q = Held i /\ owner s' i = Some q /\ link s' = Some i /\
    (e <> execOf p -> pcs s' p = Idle) /\ (e = execOf p -> pcs s' p = HeldExec).
Proof.
  intros execOf s p q i e E Eq EL EO EC. assert (N : q <> p) by congruence. cbn [run step]. rewrite E, EL. cbn. rewrite upd_same, EO. cbn. rewrite upd_same, EC.
  eexists. split; [reflexivity|]. cbn. rewrite !upd_same, !upd_other by exact N. repeat (split; [assumption|]). destruct (Z.eqb_spec e (execOf p)); split; intros; congruence.
Qed.
Print Assumptions C34_taken.

(** Releasing removes the file and frees its lock. *)
Theorem C34_release : forall execOf l s p i, run execOf init l = Some s -> pcs s p = Held i ->
  exists s', run execOf s [AUnlink p; AClose p] = Some s' /\ pcs s' p = Idle /\ owner s' i = None /\ link s' = None /\ forall q, q <> p -> pcs s' q = pcs s q.
Proof.
  intros execOf l s p i R E. exists (setPc (setOwner (setPc (setLink s None) p (Closing i)) i None) p Idle). cbn [run step]. rewrite E. cbn [pcs setPc setLink]. rewrite upd_same. unfold closeFd. cbn [pcs setPc setLink]. rewrite upd_same. cbn [flockOf].
  split; [reflexivity|]. cbn. rewrite !upd_same. do 3 (split; [reflexivity|]). intros q N. now rewrite !upd_other.
Qed.
Print Assumptions C34_release.

(** Only lockAcquire and lockRelease, nobody dies: *)
Definition plainAct (a : act) : Prop := match a with AOpen _ | AFlock _ | ARead _ | AWrite _ | AUnlink _ | AClose _ => True | _ => False end.
Definition ex0 (p : nat) : Z := match p with 0 => 10%Z | 1 => 20%Z | 2 => 30%Z | _ => 10%Z end.

(** Process 1 opens the file of process 0, which then removes and closes it.  Process 1 locks the removed file, and process 2 a new one. *)
Theorem C34_race_refuted : exists execOf l s p q, Forall plainAct l /\ run execOf init l = Some s /\ holdsFd s p /\ holdsFd s q /\ execOf p <> execOf q.
Proof.
  exists ex0, [AOpen 0; AFlock 0; AWrite 0; AOpen 1; AUnlink 0; AClose 0; AFlock 1; AWrite 1; AOpen 2; AFlock 2; AWrite 2].
  eexists. exists 1, 2. split; [repeat constructor|]. split; [reflexivity|]. split; [exists 0; reflexivity|]. split; [exists 1; reflexivity|]. discriminate.
Qed.
Print Assumptions C34_race_refuted.

(** Without overlap, after a death: process 1 has the flock but has not written yet, process 3 reads the exec id of the dead process 0, which is its own. *)
Theorem C34_stale_refuted : exists execOf l s p q, along execOf quietStep init l /\ run execOf init l = Some s /\ holds s p /\ holds s q /\ execOf p <> execOf q.
Proof.
  exists ex0, [AOpen 0; AFlock 0; AWrite 0; ADie 0; AOpen 1; AFlock 1; AOpen 3; AFlock 3; ARead 3; AWrite 1].
  eexists. exists 1, 3. split; [cbn; repeat split|]. split; [reflexivity|]. split; [left; exists 0; reflexivity|]. split; [right; reflexivity|]. discriminate.
Qed.
Print Assumptions C34_stale_refuted.

(** Without overlap and deaths: process 3 shares the lock of process 0, which releases it; process 1 gets the lock while process 3 still counts on it. *)
Theorem C34_outlives_refuted : exists execOf l s p q, Forall plainAct l /\ along execOf quietStep init l /\ run execOf init l = Some s /\ holds s p /\ holds s q /\ execOf p <> execOf q.
Proof.
  exists ex0, [AOpen 0; AFlock 0; AWrite 0; AOpen 3; AFlock 3; ARead 3; AUnlink 0; AClose 0; AOpen 1; AFlock 1; AWrite 1].
  eexists. exists 1, 3. split; [repeat constructor|]. split.
  { cbn. repeat split. intros _ q N (i & B). unfold upd in B. cbn in B. destruct q as [|[|[|[|q]]]]; cbn in B; try lia; destruct B as [B|[B|[B|[B|B]]]]; discriminate. }
  split; [reflexivity|]. split; [left; exists 1; reflexivity|]. split; [right; reflexivity|]. discriminate.
Qed.
Print Assumptions C34_outlives_refuted.

(** lockRead with remove (stop --force) removes the file of a process that still holds the lock. *)
Theorem C34_read_remove_refuted : exists execOf l s p q, run execOf init l = Some s /\ (forall r, ~ In (ADie r) l) /\ holdsFd s p /\ holdsFd s q /\ execOf p <> execOf q.
Proof.
  exists ex0, [AOpen 0; AFlock 0; AWrite 0; AROpen 1; ARFlock 1; ARUnlink 1; ARClose 1; AOpen 2; AFlock 2; AWrite 2].
  eexists. exists 0, 2. split; [reflexivity|]. split; [intros r H; repeat (destruct H as [H|H]; [discriminate|]); exact H|]. split; [exists 0; reflexivity|]. split; [exists 1; reflexivity|]. discriminate.
Qed.
Print Assumptions C34_read_remove_refuted.

(** An orderly run: process 1 is refused, process 3 shares, process 1 gets the lock after both released. *)
Definition orderlyRun : list act :=
  [AOpen 0; AFlock 0; AWrite 0; AOpen 1; AFlock 1; ARead 1; AOpen 3; AFlock 3; ARead 3; AUnlink 3; AUnlink 0; AClose 0; AOpen 1; AFlock 1; AWrite 1].
Example C34_nontrivial : match run ex0 init (firstn 9 orderlyRun) with Some s => pcs s 0 = Held 0 /\ pcs s 1 = Idle /\ pcs s 3 = HeldExec | None => False end /\
  match run ex0 init orderlyRun with Some s => pcs s 0 = Idle /\ pcs s 1 = Held 1 /\ pcs s 3 = Idle | None => False end.
Proof. vm_compute. repeat split. Qed.
Example C34_nontrivial_orderly : along ex0 (orderlyStep ex0) init orderlyRun.
Proof.
  cbn. unfold orderlyStep, quietStep, between, holdsFd. cbn. repeat match goal with |- _ /\ _ => split | |- True => exact I end; auto.
  - intros (i & H). discriminate.
  - intros (i & H). discriminate.
  - intros _ q N (i & B). unfold upd in B. destruct q as [|[|[|[|q]]]]; cbn in B; try lia; destruct B as [B|[B|[B|[B|B]]]]; discriminate.
  - intros _ q. unfold upd. destruct q as [|[|[|[|q]]]]; cbn; discriminate.
Qed.
