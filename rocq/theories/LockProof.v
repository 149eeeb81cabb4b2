(** Proofs for lock files. *)
From Verif Require Import Base LockModel LockSpec.
Open Scope nat_scope.

Lemma upd_same {A} (f : nat -> A) k v : upd f k v k = v. Proof. unfold upd. now rewrite Nat.eqb_refl. Qed.
Lemma upd_other {A} (f : nat -> A) k v x : x <> k -> upd f k v x = f x. Proof. unfold upd. intros H. apply Nat.eqb_neq in H. now rewrite H. Qed.

Section Proof.
  Variable execOf : nat -> Z.
  Notation step := (step execOf). Notation run := (run execOf).

  (** flock() is exclusive, always. *)
  Record flockInv (s : lst) : Prop := {
    fi_owner : forall i p, owner s i = Some p <-> flockOf (pcs s p) = Some i;
    fi_next : forall i, next s <= i -> owner s i = None /\ content s i = None;
    fi_link : forall i, link s = Some i -> i < next s;
    fi_pc : forall p i, (pcs s p = Opened i \/ pcs s p = Blocked i \/ pcs s p = ROpened i \/ pcs s p = RNo i) -> i < next s }.
  Lemma init_inv : flockInv init.
  Proof. split; cbn; intros; [split; discriminate|auto|discriminate|destruct H as [H|[H|[H|H]]]; discriminate]. Qed.

  (** A process changes place without changing its flock *)
  Lemma inv_pc s p c : flockInv s -> flockOf c = flockOf (pcs s p) -> (forall i, (c = Opened i \/ c = Blocked i \/ c = ROpened i \/ c = RNo i) -> i < next s) -> flockInv (setPc s p c).
  Proof.
    intros [H1 H2 H3 H4] E B. split; cbn; auto.
    - intros i q. rewrite H1. destruct (Nat.eq_dec q p) as [-> |N]; [rewrite upd_same, E; reflexivity|now rewrite upd_other].
    - intros q i. destruct (Nat.eq_dec q p) as [-> |N]; [rewrite upd_same; apply B|rewrite upd_other by exact N; apply H4].
  Qed.
  Lemma inv_lock s p i c : flockInv s -> owner s i = None -> flockOf (pcs s p) = None -> i < next s -> flockOf c = Some i -> (forall j, ~ (c = Opened j \/ c = Blocked j \/ c = ROpened j \/ c = RNo j)) ->
    flockInv (setPc (setOwner s i (Some p)) p c).
  Proof.
    intros [H1 H2 H3 H4] E F L G B. split; cbn; auto.
    - intros j q. destruct (Nat.eq_dec q p) as [-> |N].
      + rewrite upd_same, G. destruct (Nat.eq_dec j i) as [-> |Nj]; [rewrite upd_same; tauto|rewrite upd_other by exact Nj]. split; [intros X; apply H1 in X; congruence|intros [= <-]; congruence].
      + rewrite (upd_other (pcs s)) by exact N. destruct (Nat.eq_dec j i) as [-> |Nj]; [rewrite upd_same|rewrite upd_other by exact Nj; apply H1]. split; [intros [= <-]; congruence|intros X; apply H1 in X; congruence].
    - intros j Hj. rewrite upd_other by lia. auto.
    - intros q j. destruct (Nat.eq_dec q p) as [-> |N]; [rewrite upd_same; intros X; elim (B j X)|rewrite upd_other by exact N; apply H4].
  Qed.
  Lemma inv_close s p : flockInv s -> flockInv (closeFd s p).
  Proof.
    intros H. pose proof H as [H1 H2 H3 H4]. unfold closeFd. destruct (flockOf (pcs s p)) as [i|] eqn:F; [|apply inv_pc; [exact H|now rewrite F|intros i [X|[X|[X|X]]]; discriminate]]. split; cbn; auto.
    - intros j q. destruct (Nat.eq_dec q p) as [-> |N].
      + rewrite upd_same. cbn. destruct (Nat.eq_dec j i) as [-> |Nj]; [rewrite upd_same; split; discriminate|rewrite upd_other by exact Nj]. split; [intros X; apply H1 in X; congruence|discriminate].
      + rewrite (upd_other (pcs s)) by exact N. destruct (Nat.eq_dec j i) as [-> |Nj]; [rewrite upd_same|rewrite upd_other by exact Nj; apply H1]. split; [discriminate|]. intros X. apply H1 in X. apply H1 in F. congruence.
    - intros j Hj. destruct (H2 j Hj) as (A & B). split; [|exact B]. destruct (Nat.eq_dec j i) as [-> |Nj]; [now rewrite upd_same|now rewrite upd_other].
    - intros q j. destruct (Nat.eq_dec q p) as [-> |N]; [rewrite upd_same; intros [X|[X|[X|X]]]; discriminate|rewrite upd_other by exact N; apply H4].
  Qed.
  Lemma inv_link s : flockInv s -> flockInv (setLink s None).
  Proof. intros [H1 H2 H3 H4]. split; cbn; auto. discriminate. Qed.

  Ltac notPc := intros ? [X|[X|[X|X]]]; discriminate.
  Lemma step_inv s a s' : flockInv s -> step s a = Some s' -> flockInv s'.
  Proof.
    intros H. pose proof H as [H1 H2 H3 H4]. destruct a as [p|p|p|p|p|p|p|p|p|p|p]; cbn [LockModel.step].
    - destruct (pcs s p) eqn:E; try discriminate. destruct (link s) as [i|] eqn:EL; intros [= <-].
      + apply inv_pc; [exact H|now rewrite E|]. intros j [X|[X|[X|X]]]; try discriminate. injection X as <-. auto.
      + split; cbn.
        * intros i q. destruct (Nat.eq_dec q p) as [-> |N]; [rewrite upd_same, H1, E; reflexivity|rewrite upd_other by exact N; apply H1].
        * intros i Hi. apply H2. lia.
        * intros i [= <-]. lia.
        * intros q i. destruct (Nat.eq_dec q p) as [-> |N]; [rewrite upd_same; intros [X|[X|[X|X]]]; try discriminate; injection X as <-; lia|rewrite upd_other by exact N]. intros X. apply H4 in X. lia.
    - destruct (pcs s p) eqn:E; try discriminate. assert (L : i < next s) by (apply (H4 p i); auto). destruct (owner s i) as [o|] eqn:EO; intros [= <-].
      + apply inv_pc; [exact H|now rewrite E|]. intros j [X|[X|[X|X]]]; try discriminate. now injection X as <-.
      + apply inv_lock; auto; [now rewrite E|notPc].
    - destruct (pcs s p) eqn:E; try discriminate. intros [= <-]. destruct (content s i) as [e|]; [destruct (Z.eqb e (execOf p))|]; (apply inv_pc; [exact H|now rewrite E|notPc]).
    - destruct (pcs s p) eqn:E; try discriminate. intros [= <-]. assert (O : owner s i = Some p) by (apply H1; now rewrite E).
      assert (L : i < next s). { destruct (le_lt_dec (next s) i) as [G|G]; [destruct (H2 i G); congruence|exact G]. }
      apply (inv_pc (setContent s i (Some (execOf p)))); [|cbn; now rewrite E|notPc]. split; cbn; auto. intros j Hj. rewrite upd_other by lia. auto.
    - destruct (pcs s p) eqn:E; try discriminate; intros [= <-].
      + apply inv_pc; [now apply inv_link|cbn; now rewrite E|notPc].
      + apply inv_pc; [exact H|now rewrite E|notPc].
    - destruct (pcs s p) eqn:E; try discriminate. intros [= <-]. now apply inv_close.
    - destruct (pcs s p) eqn:E; try discriminate. destruct (link s) as [i|] eqn:EL; intros [= <-]; [|exact H]. apply inv_pc; [exact H|now rewrite E|]. intros j [X|[X|[X|X]]]; try discriminate. injection X as <-. auto.
    - destruct (pcs s p) eqn:E; try discriminate. assert (L : i < next s) by (apply (H4 p i); auto). destruct (owner s i) as [o|] eqn:EO; intros [= <-].
      + apply inv_pc; [exact H|now rewrite E|]. intros j [X|[X|[X|X]]]; try discriminate. now injection X as <-.
      + apply inv_lock; auto; [now rewrite E|notPc].
    - destruct (pcs s p) eqn:E; try discriminate; intros [= <-]; (apply inv_pc; [now apply inv_link|cbn; now rewrite E|notPc]).
    - destruct (pcs s p) eqn:E; try discriminate; intros [= <-]; now apply inv_close.
    - intros [= <-]. now apply inv_close.
  Qed.
  Lemma run_inv l : forall s s', flockInv s -> run s l = Some s' -> flockInv s'.
  Proof. induction l as [|a l IH]; intros s s' H; cbn; [intros [= <-]; exact H|]. destruct (step s a) as [t|] eqn:E; [|discriminate]. intros R. exact (IH t s' (step_inv s a t H E) R). Qed.

  (** * Quiet runs *)
  Definition uses (c : pc) : option nat := match c with Opened i | Blocked i | Locked i | Held i | ROpened i | RHas i | RNo i => Some i | _ => None end.
  Definition linkInv (s : lst) : Prop := forall p i, uses (pcs s p) = Some i -> link s = Some i.
  Lemma pcs_set s p c q : pcs (setPc s p c) q = if q =? p then c else pcs s q. Proof. reflexivity. Qed.
  Lemma close_pcs s p q : pcs (closeFd s p) q = if q =? p then Idle else pcs s q. Proof. unfold closeFd. destruct (flockOf (pcs s p)); reflexivity. Qed.
  Lemma close_link s p : link (closeFd s p) = link s. Proof. unfold closeFd. destruct (flockOf (pcs s p)); reflexivity. Qed.
  Lemma close_content s p : content (closeFd s p) = content s. Proof. unfold closeFd. destruct (flockOf (pcs s p)); reflexivity. Qed.

  (** The files locked with the same name in use are the same. *)
  Lemma lock_unique s p q i : flockInv s -> flockOf (pcs s p) = Some i -> flockOf (pcs s q) = Some i -> p = q.
  Proof. intros [H1 _ _ _] Hp Hq. apply H1 in Hp, Hq. congruence. Qed.

  Lemma step_quiet s a s' : flockInv s -> linkInv s -> quietStep s a -> step s a = Some s' -> linkInv s'.
  Proof.
    intros F L Q. destruct a as [p|p|p|p|p|p|p|p|p|p|p]; cbn [LockModel.step].
    - destruct (pcs s p) eqn:E; try discriminate. destruct (link s) as [i|] eqn:EL; intros [= <-] q j.
      + rewrite pcs_set. cbn [link setPc]. destruct (q =? p); [intros [= <-]; exact EL|apply L].
      + cbn [link pcs]. unfold upd. destruct (q =? p); [intros [= <-]; reflexivity|]. intros X. apply L in X. congruence.
    - destruct (pcs s p) eqn:E; try discriminate. assert (LI : link s = Some i) by (apply (L p); now rewrite E). destruct (owner s i); intros [= <-] q j; rewrite pcs_set; cbn; destruct (q =? p); try (intros [= <-]; exact LI); apply L.
    - destruct (pcs s p) eqn:E; try discriminate. intros [= <-] q j. rewrite pcs_set. cbn. destruct (q =? p); [|apply L]. destruct (content s i) as [e|]; [destruct (Z.eqb e (execOf p))|]; discriminate.
    - destruct (pcs s p) eqn:E; try discriminate. assert (LI : link s = Some i) by (apply (L p); now rewrite E). intros [= <-] q j. rewrite pcs_set. cbn. destruct (q =? p); [intros [= <-]; exact LI|apply L].
    - destruct (pcs s p) eqn:E; try discriminate; intros [= <-] q j; rewrite pcs_set; cbn; destruct (Nat.eqb_spec q p) as [-> |N]; try discriminate; [|apply L].
      intros X. exfalso. assert (LI : link s = Some i) by (apply (L p); now rewrite E). assert (LJ := L q j X). assert (j = i) by congruence. subst j.
      assert (NB : ~ between s q) by (apply Q; [exists i; exact E|exact N]). apply N. destruct (pcs s q) eqn:Eq; try discriminate X; injection X as <-.
      + elim NB. exists i0. auto. + elim NB. exists i0. auto.
      + apply (lock_unique s q p i0 F); [now rewrite Eq|now rewrite E]. + apply (lock_unique s q p i0 F); [now rewrite Eq|now rewrite E].
      + elim NB. exists i0. auto. + elim NB. exists i0. auto 6. + elim NB. exists i0. auto 6.
    - destruct (pcs s p) eqn:E; try discriminate. intros [= <-] q j. rewrite close_pcs, close_link. destruct (q =? p); [discriminate|apply L].
    - destruct (pcs s p) eqn:E; try discriminate. destruct (link s) as [i|] eqn:EL; intros [= <-] q j; [|intros X; apply L in X; congruence]. rewrite pcs_set. cbn. destruct (q =? p); [intros [= <-]; exact EL|intros X; apply L in X; congruence].
    - destruct (pcs s p) eqn:E; try discriminate. assert (LI : link s = Some i) by (apply (L p); now rewrite E). destruct (owner s i); intros [= <-] q j; rewrite pcs_set; cbn; destruct (q =? p); try (intros [= <-]; exact LI); apply L.
    - cbn [quietStep] in Q. destruct Q as ((i & E) & Q). rewrite E. intros [= <-] q j. rewrite pcs_set. cbn. destruct (Nat.eqb_spec q p) as [-> |N]; [discriminate|].
      intros X. exfalso. assert (LI : link s = Some i) by (apply (L p); now rewrite E). assert (LJ := L q j X). assert (j = i) by congruence. subst j.
      assert (NB : ~ between s q) by (now apply Q). apply N. destruct (pcs s q) eqn:Eq; try discriminate X; injection X as <-.
      + elim NB. exists i0. auto. + elim NB. exists i0. auto.
      + apply (lock_unique s q p i0 F); [now rewrite Eq|now rewrite E]. + apply (lock_unique s q p i0 F); [now rewrite Eq|now rewrite E].
      + elim NB. exists i0. auto. + elim NB. exists i0. auto 6. + elim NB. exists i0. auto 6.
    - destruct (pcs s p) eqn:E; try discriminate; intros [= <-] q j; rewrite close_pcs, close_link; (destruct (q =? p); [discriminate|apply L]).
    - intros [= <-] q j. rewrite close_pcs, close_link. destruct (q =? p); [discriminate|apply L].
  Qed.
  Lemma run_quiet l : forall s s', flockInv s -> linkInv s -> along execOf quietStep s l -> run s l = Some s' -> flockInv s' /\ linkInv s'.
  Proof.
    induction l as [|a l IH]; intros s s' F L Q; cbn; [intros [= <-]; auto|]. cbn in Q. destruct Q as (Q & QR). destruct (step s a) as [t|] eqn:E; [|discriminate]. intros R. apply (IH t s'); auto; [exact (step_inv s a t F E)|exact (step_quiet s a t F L Q E)].
  Qed.
  Lemma quiet_unique s p q : flockInv s -> linkInv s -> holdsFd s p -> holdsFd s q -> p = q.
  Proof. intros F L (i & Hp) (j & Hq). assert (link s = Some i) by (apply (L p); now rewrite Hp). assert (link s = Some j) by (apply (L q); now rewrite Hq). assert (i = j) by congruence. subst j. apply (lock_unique s p q i F); [now rewrite Hp|now rewrite Hq]. Qed.

  (** * Orderly runs *)
  Record execInv (s : lst) : Prop := {
    ei_content : forall i e, link s = Some i -> content s i = Some e -> exists p, pcs s p = Held i /\ execOf p = e;
    ei_exec : forall q, pcs s q = HeldExec -> exists p i, pcs s p = Held i /\ execOf p = execOf q }.

  (** a step of a process that neither is nor becomes [Held] or [HeldExec], without changing links and contents *)
  Lemma exec_pc s s' p : execInv s -> link s' = link s -> content s' = content s -> (forall q, q <> p -> pcs s' q = pcs s q) -> (forall i, pcs s p <> Held i) -> pcs s' p <> HeldExec -> execInv s'.
  Proof.
    intros [C X] EL EC EP NP NH. assert (K : forall q i, pcs s q = Held i -> pcs s' q = Held i) by (intros q i Hq; rewrite EP; [exact Hq|intros ->; exact (NP i Hq)]). split.
    - intros i e. rewrite EL, EC. intros H1 H2. destruct (C i e H1 H2) as (q & Hq & E). eauto.
    - intros q Hq. assert (q <> p) by congruence. rewrite EP in Hq by assumption. destruct (X q Hq) as (r & i & Hr & E). eauto 6.
  Qed.
  Lemma set_other s p c q : q <> p -> pcs (setPc s p c) q = pcs s q. Proof. rewrite pcs_set. destruct (Nat.eqb_spec q p); congruence. Qed.
  Lemma set_same s p c : pcs (setPc s p c) p = c. Proof. rewrite pcs_set. now rewrite Nat.eqb_refl. Qed.
  Lemma step_orderly s a s' : flockInv s -> linkInv s -> execInv s -> orderlyStep execOf s a -> step s a = Some s' -> execInv s'.
  Proof.
    intros F L X (Q & O). pose proof X as [XC XE]. pose proof F as [F1 F2 F3 F4]. destruct a as [p|p|p|p|p|p|p|p|p|p|p]; cbn [LockModel.step].
    - destruct (pcs s p) eqn:E; try discriminate. destruct (link s) as [i|] eqn:EL; intros [= <-].
      + apply (exec_pc s _ p X); auto; [apply set_other|congruence|rewrite set_same; discriminate].
      + split; cbn [link content pcs].
        * intros i e [= <-] H. destruct (F2 (next s) (le_n _)); congruence.
        * intros q. unfold upd. destruct (Nat.eqb_spec q p) as [-> |N]; [discriminate|]. intros Hq. destruct (XE q Hq) as (r & i & Hr & _). assert (link s = Some i) by (apply (L r); now rewrite Hr). congruence.
    - destruct (pcs s p) eqn:E; try discriminate. destruct (owner s i); intros [= <-]; (apply (exec_pc s _ p X); auto; [intros q N; rewrite set_other by exact N; reflexivity|congruence|rewrite set_same; discriminate]).
    - destruct (pcs s p) eqn:E; try discriminate. intros [= <-]. assert (LI : link s = Some i) by (apply (L p); now rewrite E).
      destruct (content s i) as [e|] eqn:EC; [destruct (Z.eqb_spec e (execOf p)) as [-> |]|]; try (apply (exec_pc s _ p X); auto; [apply set_other|congruence|rewrite set_same; discriminate]).
      destruct (XC i (execOf p) LI EC) as (r & Hr & Er). assert (r <> p) by congruence. split; cbn [link content setPc].
      + intros j e H1 H2. destruct (XC j e H1 H2) as (u & Hu & Eu). assert (u <> p) by congruence. exists u. rewrite set_other by assumption. auto.
      + intros q Hq. destruct (Nat.eq_dec q p) as [-> |N]; [exists r, i; rewrite set_other by assumption; auto|]. rewrite set_other in Hq by exact N. destruct (XE q Hq) as (u & j & Hu & Eu). assert (u <> p) by congruence. exists u, j. rewrite set_other by assumption. auto.
    - destruct (pcs s p) eqn:E; try discriminate. intros [= <-]. assert (LI : link s = Some i) by (apply (L p); now rewrite E).
      assert (K : forall u j, pcs s u = Held j -> False).
      { intros u j Hu. assert (link s = Some j) by (apply (L u); now rewrite Hu). assert (j = i) by congruence. subst j. assert (u = p) by (apply (lock_unique s u p i F); [now rewrite Hu|now rewrite E]). congruence. }
      split; cbn [link content setPc setContent].
      + intros j e H1 H2. assert (j = i) by congruence. subst j. rewrite upd_same in H2. injection H2 as <-. exists p. cbn. rewrite upd_same. auto.
      + intros q Hq. cbn in Hq. destruct (Nat.eq_dec q p) as [-> |N]; [rewrite upd_same in Hq; discriminate|]. rewrite upd_other in Hq by exact N. destruct (XE q Hq) as (u & j & Hu & _). elim (K u j Hu).
    - destruct (pcs s p) eqn:E; try discriminate; intros [= <-].
      + assert (LI : link s = Some i) by (apply (L p); now rewrite E). split; cbn [link content setPc setLink]; [discriminate|]. intros q Hq. cbn in Hq. destruct (Nat.eq_dec q p) as [-> |N]; [rewrite upd_same in Hq; discriminate|]. rewrite upd_other in Hq by exact N.
        destruct (XE q Hq) as (u & j & Hu & Eu). assert (HU : u = p) by (apply (quiet_unique s u p F L); [exists j; exact Hu|exists i; exact E]). subst u. assert (ne : execOf q <> execOf p) by (apply O; [exists i; exact E|exact Hq]). congruence.
      + apply (exec_pc s _ p X); auto; [apply set_other|congruence|rewrite set_same; discriminate].
    - destruct (pcs s p) eqn:E; try discriminate. intros [= <-]. apply (exec_pc s _ p X); [apply close_link|apply close_content| |congruence|rewrite close_pcs, Nat.eqb_refl; discriminate]. intros q N. rewrite close_pcs. destruct (Nat.eqb_spec q p); congruence.
    - destruct (pcs s p) eqn:E; try discriminate. destruct (link s) as [i|] eqn:EL; intros [= <-]; [|exact X]. apply (exec_pc s _ p X); auto; [apply set_other|congruence|rewrite set_same; discriminate].
    - destruct (pcs s p) eqn:E; try discriminate. destruct (owner s i); intros [= <-]; (apply (exec_pc s _ p X); auto; [intros q N; rewrite set_other by exact N; reflexivity|congruence|rewrite set_same; discriminate]).
    - cbn [quietStep] in Q. destruct Q as ((i & E) & Q). rewrite E. intros [= <-]. assert (LI : link s = Some i) by (apply (L p); now rewrite E). split; cbn [link content setPc setLink]; [discriminate|]. intros q Hq. cbn in Hq. destruct (Nat.eq_dec q p) as [-> |N]; [rewrite upd_same in Hq; discriminate|]. rewrite upd_other in Hq by exact N.
      destruct (XE q Hq) as (u & j & Hu & Eu). assert (link s = Some j) by (apply (L u); now rewrite Hu). assert (j = i) by congruence. subst j. assert (u = p) by (apply (lock_unique s u p i F); [now rewrite Hu|now rewrite E]). congruence.
    - destruct (pcs s p) eqn:E; try discriminate; intros [= <-]; (apply (exec_pc s _ p X); [apply close_link|apply close_content| |congruence|rewrite close_pcs, Nat.eqb_refl; discriminate]); intros q N; rewrite close_pcs; destruct (Nat.eqb_spec q p); congruence.
    - cbn in O. intros [= <-]. apply (exec_pc s _ p X); [apply close_link|apply close_content| |intros i; apply O|rewrite close_pcs, Nat.eqb_refl; discriminate]. intros q N. rewrite close_pcs. destruct (Nat.eqb_spec q p); congruence.
  Qed.
  Lemma run_orderly l : forall s s', flockInv s -> linkInv s -> execInv s -> along execOf (orderlyStep execOf) s l -> run s l = Some s' -> flockInv s' /\ linkInv s' /\ execInv s'.
  Proof.
    induction l as [|a l IH]; intros s s' F L X Q; cbn; [intros [= <-]; auto|]. cbn in Q. destruct Q as (Q & QR). destruct (step s a) as [t|] eqn:E; [|discriminate]. intros R. apply (IH t s'); auto; [exact (step_inv s a t F E)|exact (step_quiet s a t F L (proj1 Q) E)|exact (step_orderly s a t F L X Q E)].
  Qed.
  Lemma orderly_exec s p q : flockInv s -> linkInv s -> execInv s -> holds s p -> holds s q -> execOf p = execOf q.
  Proof.
    intros F L [_ XE]. assert (G : forall p, holds s p -> exists u, holdsFd s u /\ execOf u = execOf p). { intros r [H|H]; [eauto|]. destruct (XE r H) as (u & i & Hu & E). exists u. split; [exists i; exact Hu|exact E]. }
    intros Hp Hq. destruct (G p Hp) as (u & Hu & Eu). destruct (G q Hq) as (v & Hv & Ev). assert (u = v) by (apply (quiet_unique s u v F L Hu Hv)). congruence.
  Qed.
  Lemma init_link : linkInv init. Proof. intros p i H. discriminate. Qed.
  Lemma init_exec : execInv init. Proof. split; cbn; discriminate. Qed.
End Proof.
