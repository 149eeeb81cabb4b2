From Verif Require Import Base ParallelModel ParallelSpec.
From Coq Require Import Permutation.
Open Scope nat_scope.

Section Proof.
  Variables (J R S : Type) (callback : S -> nat -> option J * S).
  Notation event := (event J R).
  Notation job := (job J R).
  Notation sentIds := (sentIds J R).
  Notation receivedIds := (receivedIds J R).
  Notation returnedIds := (returnedIds J R).
  Notation working := (working J R).
  Notation Sent := (Sent J R). Notation Received := (Received J R). Notation Returned := (Returned J R). Notation Freed := (Freed J R).
  Notation good := (good J R S callback).
  Notation jId := (jId J R). Notation jData := (jData J R). Notation jProc := (jProc J R). Notation jState := (jState J R). Notation jResult := (jResult J R).
  Notation mkJob := (mkJob J R).

  (** * Trace lemmas *)
  Lemma working_app t e c : working (t ++ [e]) c =
    match e with ParallelModel.Sent _ _ c' i _ => if Nat.eqb c c' then Some i else working t c
               | ParallelModel.Received _ _ c' _ _ => if Nat.eqb c c' then None else working t c | _ => working t c end.
  Proof. unfold ParallelSpec.working. rewrite fold_left_app. reflexivity. Qed.
  Lemma sentIds_app t e : sentIds (t ++ [e]) = sentIds t ++ match e with ParallelModel.Sent _ _ _ i _ => [i] | _ => [] end.
  Proof. unfold ParallelSpec.sentIds. rewrite flat_map_app. cbn. now rewrite app_nil_r. Qed.
  Lemma receivedIds_app t e : receivedIds (t ++ [e]) = receivedIds t ++ match e with ParallelModel.Received _ _ _ i _ => [i] | _ => [] end.
  Proof. unfold ParallelSpec.receivedIds. rewrite flat_map_app. cbn. now rewrite app_nil_r. Qed.
  Lemma returnedIds_app t e : returnedIds (t ++ [e]) = returnedIds t ++ match e with ParallelModel.Returned _ _ i _ _ => [i] | _ => [] end.
  Proof. unfold ParallelSpec.returnedIds. rewrite flat_map_app. cbn. now rewrite app_nil_r. Qed.
  Lemma in_snoc {A} (x y : A) l : In x (l ++ [y]) <-> In x l \/ x = y.
  Proof. rewrite in_app_iff. cbn. intuition. Qed.
  Lemma sent_in t c i d : In (Sent c i d) t -> In i (sentIds t).
  Proof. intros H. apply in_flat_map. eexists. split; [exact H|]. cbn. auto. Qed.
  Lemma sent_of t i : In i (sentIds t) -> exists c d, In (Sent c i d) t.
  Proof. intros H. apply in_flat_map in H. destruct H as ([c i' d|c|c i' r|i' d r] & H & E); cbn in E; try tauto. destruct E as [->|[]]. eauto. Qed.

  Lemma good_sent_unique n s t s' : good n s t s' -> forall c c' i d d', In (Sent c i d) t -> In (Sent c' i d') t -> c = c' /\ d = d'.
  Proof.
    induction 1 as [|t s1 s2 c i d H IH Hc Hw Hf Hcb Hi|t s1 s2 c H IH Hc Hw Hf Hcb|t s1 c i r H IH Hw Hr|t s1 c i d r H IH Hs Hr Hn];
      intros a a' x y y' H1 H2; [destruct H1|..]; apply in_snoc in H1, H2; destruct H1 as [H1|H1], H2 as [H2|H2]; try discriminate; eauto.
    - injection H2 as -> -> ->. apply sent_in in H1. tauto.
    - injection H1 as -> -> ->. apply sent_in in H2. tauto.
    - injection H1 as -> -> ->. injection H2 as -> ->. auto.
  Qed.
  Lemma working_sent n s t s' : good n s t s' -> forall c i, working t c = Some i -> c < n /\ exists d, In (Sent c i d) t.
  Proof.
    induction 1 as [|t s1 s2 c i d H IH Hc Hw Hf Hcb Hi|t s1 s2 c H IH Hc Hw Hf Hcb|t s1 c i r H IH Hw Hr|t s1 c i d r H IH Hs Hr Hn];
      intros a x E; [discriminate E|..]; rewrite working_app in E.
    - destruct (Nat.eqb_spec a c) as [->|].
      + injection E as ->. split; [exact Hc|]. exists d. apply in_snoc. now right.
      + destruct (IH _ _ E) as (Ha & d' & Hd). split; [exact Ha|]. exists d'. apply in_snoc. now left.
    - destruct (IH _ _ E) as (Ha & d' & Hd). split; [exact Ha|]. exists d'. apply in_snoc. now left.
    - destruct (Nat.eqb_spec a c); [discriminate|]. destruct (IH _ _ E) as (Ha & d' & Hd). split; [exact Ha|]. exists d'. apply in_snoc. now left.
    - destruct (IH _ _ E) as (Ha & d' & Hd). split; [exact Ha|]. exists d'. apply in_snoc. now left.
  Qed.

  (** * Invariant *)
  Definition jobOk (t : list event) (j : job) : Prop :=
    exists c, jProc j = c + 1 /\ In (Sent c (jId j) (jData j)) t /\
      match jState j with
      | JPending => False
      | JRunning => working t c = Some (jId j) /\ ~ In (jId j) (receivedIds t)
      | JDone => exists r, jResult j = Some r /\ In (Received c (jId j) r) t
      end.
  Record inv (n : nat) (s : S) (cl : list client) (jobs : list job) (cb : S) (next : nat) (t : list event) : Prop := {
    i_good : good n s t cb;
    i_len : length cl = n;
    i_next : forall i, In i (sentIds t) <-> i < next;
    i_client : forall c x, nth_error cl c = Some x -> cJob x = working t c /\ (cOpen x = false <-> In (Freed c) t);
    i_nodup : NoDup (map jId jobs);
    i_jobs : forall j, In j jobs -> jobOk t j;
    i_work : forall c i, working t c = Some i -> exists j, In j jobs /\ jId j = i /\ jState j = JRunning;
    i_sent : forall i, In i (sentIds t) -> In i (returnedIds t) \/ In i (map jId jobs);
    i_ret : forall j, In j jobs -> ~ In (jId j) (returnedIds t) }.

  Lemma work_inj n s cl jobs cb next t c c' i : inv n s cl jobs cb next t -> working t c = Some i -> working t c' = Some i -> c = c'.
  Proof.
    intros I H1 H2. destruct (working_sent _ _ _ _ (i_good _ _ _ _ _ _ _ I) _ _ H1) as (_ & d1 & S1). destruct (working_sent _ _ _ _ (i_good _ _ _ _ _ _ _ I) _ _ H2) as (_ & d2 & S2).
    now destruct (good_sent_unique _ _ _ _ (i_good _ _ _ _ _ _ _ I) _ _ _ _ _ S1 S2).
  Qed.

  Lemma nth_error_upd (pre : list client) x y post c : nth_error (pre ++ y :: post) c = if Nat.eqb c (length pre) then Some y else nth_error (pre ++ x :: post) c.
  Proof.
    destruct (Nat.eqb_spec c (length pre)) as [->|E].
    - rewrite nth_error_app2 by lia. now rewrite Nat.sub_diag.
    - destruct (Nat.lt_ge_cases c (length pre)); [now rewrite !nth_error_app1 by lia|]. rewrite !nth_error_app2 by lia.
      destruct (c - length pre) as [|k] eqn:Ek; [lia|reflexivity].
  Qed.

  Lemma jobUpdate_spec id f l j j' : NoDup (map jId l) -> In j l -> jId j = id -> f j = Ok j' -> jId j' = id ->
    exists l', jobUpdate J R id f l = Ok l' /\ map jId l' = map jId l /\ (forall x, In x l' <-> x = j' \/ (In x l /\ jId x <> id)).
  Proof.
    intros Hn Hi Hid Hf Hid'. induction l as [|x l IH]; [destruct Hi|]. cbn [jobUpdate]. cbn [map] in Hn. apply NoDup_cons_iff in Hn. destruct Hn as [Hx Hn].
    destruct (Nat.eqb_spec (jId x) id) as [E|E].
    - assert (x = j). { destruct Hi as [->|Hi]; [reflexivity|]. exfalso. apply Hx. rewrite E, <- Hid. now apply in_map. }
      subst x. rewrite Hf. cbn [bind]. eexists. split; [reflexivity|]. split; [cbn; congruence|]. intros x. cbn. split.
      + intros [->|H]; [now left|right]. split; [now right|]. intros E2. apply Hx. rewrite E, <- E2. now apply in_map.
      + intros [->|[[->|H] H2]]; auto. congruence.
    - destruct Hi as [->|Hi]; [congruence|]. destruct (IH Hn Hi) as (l' & E1 & E2 & E3). rewrite E1. cbn [bind]. eexists. split; [reflexivity|].
      split; [cbn; congruence|]. intros y. cbn. rewrite E3. intuition (subst; auto).
  Qed.

  Lemma recv_step n s pre id o post jobs cb next t r :
    inv n s (pre ++ mkClient (Some id) o :: post) jobs cb next t ->
    exists jobs', jobUpdate J R id (jobFinish J R r) jobs = Ok jobs' /\
      inv n s (pre ++ mkClient None o :: post) jobs' cb next (t ++ [Received (length pre) id r]).
  Proof.
    intros I. set (c := length pre). assert (Hc : nth_error (pre ++ mkClient (Some id) o :: post) c = Some (mkClient (Some id) o)) by (unfold c; rewrite nth_error_app2, Nat.sub_diag by lia; reflexivity).
    destruct (i_client _ _ _ _ _ _ _ I _ _ Hc) as [Hw _]. cbn in Hw. symmetry in Hw. destruct (i_work _ _ _ _ _ _ _ I _ _ Hw) as (j & Hj & Hid & Hst).
    destruct (i_jobs _ _ _ _ _ _ _ I j Hj) as (c' & Hp & Hs & Hm). rewrite Hst in Hm. destruct Hm as [Hwj Hnr]. rewrite Hid in *.
    assert (c' = c) by (eapply work_inj; eauto). subst c'.
    destruct (jobUpdate_spec id (jobFinish J R r) jobs j (mkJob id (jData j) (jProc j) JDone (Some r)) (i_nodup _ _ _ _ _ _ _ I) Hj Hid) as (jobs' & E1 & E2 & E3).
    { unfold jobFinish, jobStateSet. cbn. rewrite Hst, Hid. reflexivity. } { reflexivity. }
    exists jobs'. split; [exact E1|]. constructor.
    - apply good_received; [apply I|exact Hw|exact Hnr].
    - rewrite <- (i_len _ _ _ _ _ _ _ I). now rewrite !app_length.
    - intros i. rewrite sentIds_app, app_nil_r. apply I.
    - intros a x. rewrite (nth_error_upd pre (mkClient (Some id) o)), working_app. fold c. destruct (Nat.eqb_spec a c) as [->|E].
      + intros H. injection H as <-. split; [reflexivity|]. rewrite in_snoc. destruct (i_client _ _ _ _ _ _ _ I _ _ Hc) as [_ Hf]. cbn in *. rewrite Hf. intuition discriminate.
      + intros H. destruct (i_client _ _ _ _ _ _ _ I _ _ H) as [H1 H2]. split; [exact H1|]. rewrite in_snoc, H2. intuition discriminate.
    - rewrite E2. apply I.
    - intros x Hx. apply E3 in Hx. destruct Hx as [->|[Hx Hne]].
      + exists c. cbn. split; [exact Hp|]. split; [apply in_snoc; now left|]. exists r. split; [reflexivity|]. apply in_snoc. now right.
      + destruct (i_jobs _ _ _ _ _ _ _ I x Hx) as (a & A1 & A2 & A3). exists a. split; [exact A1|]. split; [apply in_snoc; now left|].
        destruct (jState x); [exact A3| |].
        * destruct A3 as [A3 A4]. rewrite working_app, receivedIds_app, in_snoc. destruct (Nat.eqb_spec a c) as [->|]; [congruence|]. split; [exact A3|]. intros [H|H]; congruence || auto.
        * destruct A3 as (r' & A3 & A4). exists r'. split; [exact A3|]. apply in_snoc. now left.
    - intros a i. rewrite working_app. destruct (Nat.eqb_spec a c) as [->|E]; [discriminate|]. intros H. destruct (i_work _ _ _ _ _ _ _ I _ _ H) as (x & X1 & X2 & X3).
      exists x. split; [|auto]. apply E3. right. split; [exact X1|]. rewrite X2. intros ->. apply E. eapply work_inj; eauto.
    - intros i. rewrite sentIds_app, returnedIds_app, !app_nil_r, E2. apply I.
    - intros x Hx. rewrite returnedIds_app, app_nil_r. apply E3 in Hx. destruct Hx as [->|[Hx _]]; [|now apply I]. cbn. rewrite <- Hid. now apply (i_ret _ _ _ _ _ _ _ I).
  Qed.

  Lemma sent_step n s pre o post jobs cb cb' next t d :
    inv n s (pre ++ mkClient None o :: post) jobs cb next t -> o = true -> callback cb (length pre) = (Some d, cb') ->
    inv n s (pre ++ mkClient (Some next) o :: post) (jobs ++ [mkJob next d (length pre + 1) JRunning None]) cb' (next + 1) (t ++ [Sent (length pre) next d]).
  Proof.
    intros I -> Hcb. set (c := length pre) in *. assert (Hc : nth_error (pre ++ mkClient None true :: post) c = Some (mkClient None true)) by (unfold c; rewrite nth_error_app2, Nat.sub_diag by lia; reflexivity).
    destruct (i_client _ _ _ _ _ _ _ I _ _ Hc) as [Hw Hf]. cbn in Hw, Hf. symmetry in Hw.
    assert (Hfr : ~ In (Freed c) t) by (rewrite <- Hf; discriminate).
    assert (Hcn : c < n). { rewrite <- (i_len _ _ _ _ _ _ _ I), app_length. cbn. unfold c. lia. }
    assert (Hnew : ~ In next (sentIds t)) by (rewrite (i_next _ _ _ _ _ _ _ I); lia).
    assert (Hold : forall j, In j jobs -> jId j < next).
    { intros j Hj. destruct (i_jobs _ _ _ _ _ _ _ I j Hj) as (a & _ & A & _). apply (i_next _ _ _ _ _ _ _ I). eapply sent_in; eauto. }
    constructor.
    - eapply good_sent; eauto. apply I.
    - rewrite <- (i_len _ _ _ _ _ _ _ I). now rewrite !app_length.
    - intros i. rewrite sentIds_app, in_snoc, (i_next _ _ _ _ _ _ _ I). lia.
    - intros a x. rewrite (nth_error_upd pre (mkClient None true)), working_app. fold c. destruct (Nat.eqb_spec a c) as [->|E].
      + intros H. injection H as <-. cbn. split; [reflexivity|]. rewrite in_snoc. intuition discriminate.
      + intros H. destruct (i_client _ _ _ _ _ _ _ I _ _ H) as [H1 H2]. split; [exact H1|]. rewrite in_snoc, H2. intuition discriminate.
    - rewrite map_app. cbn. assert (G : NoDup (next :: map jId jobs)).
      { constructor; [|apply I]. intros H. apply in_map_iff in H. destruct H as (j & E & Hj). specialize (Hold j Hj). lia. }
      apply (Permutation_NoDup (Permutation_cons_append (map jId jobs) next)) in G. exact G.
    - intros x Hx. apply in_snoc in Hx. destruct Hx as [Hx| ->].
      + destruct (i_jobs _ _ _ _ _ _ _ I x Hx) as (a & A1 & A2 & A3). exists a. split; [exact A1|]. split; [apply in_snoc; now left|].
        destruct (jState x); [exact A3| |].
        * rewrite working_app, receivedIds_app, app_nil_r. destruct (Nat.eqb_spec a c) as [->|]; [destruct A3; congruence|exact A3].
        * destruct A3 as (r' & A3 & A4). exists r'. split; [exact A3|]. apply in_snoc. now left.
      + exists c. cbn. split; [reflexivity|]. split; [apply in_snoc; now right|]. rewrite working_app, Nat.eqb_refl, receivedIds_app, app_nil_r. split; [reflexivity|].
        intros H. apply in_flat_map in H. destruct H as ([| |c' i' r'|] & H & E); cbn in E; try tauto. destruct E as [->|[]]. apply Hnew.
        (* a received id was sent *)
        clear - H I. pose proof (i_good _ _ _ _ _ _ _ I) as G. clear I. induction G as [|t s1 s2 c i d H' IH Hc Hw Hf Hcb Hi|t s1 s2 c H' IH Hc Hw Hf Hcb|t s1 c i r H' IH Hw Hr|t s1 c i d r H' IH Hs Hr Hn]; [destruct H|..];
          apply in_snoc in H; rewrite sentIds_app, ?app_nil_r; destruct H as [H|H]; try discriminate; try (apply in_or_app; left); auto.
        injection H as -> -> ->. destruct (working_sent _ _ _ _ H' _ _ Hw) as (_ & d & Hd). eapply sent_in; eauto.
    - intros a i. rewrite working_app. destruct (Nat.eqb_spec a c) as [->|E].
      + intros H. injection H as <-. eexists. split; [apply in_snoc; right; reflexivity|]. auto.
      + intros H. destruct (i_work _ _ _ _ _ _ _ I _ _ H) as (x & X1 & X2 & X3). exists x. split; [apply in_snoc; now left|auto].
    - intros i. rewrite sentIds_app, returnedIds_app, app_nil_r, map_app, in_snoc. cbn. rewrite in_snoc. intros [H| ->]; [|auto]. destruct (i_sent _ _ _ _ _ _ _ I i H); auto.
    - intros x Hx. rewrite returnedIds_app, app_nil_r. apply in_snoc in Hx. destruct Hx as [Hx| ->]; [now apply I|]. cbn. intros H.
      apply in_flat_map in H. destruct H as ([| | |i' d' r'] & H & E); cbn in E; try tauto. destruct E as [->|[]]. apply Hnew.
      clear - H I. pose proof (i_good _ _ _ _ _ _ _ I) as G. clear I. induction G as [|t s1 s2 c i d H' IH Hc Hw Hf Hcb Hi|t s1 s2 c H' IH Hc Hw Hf Hcb|t s1 c i r H' IH Hw Hr|t s1 c i d r H' IH Hs Hr Hn]; [destruct H|..];
        apply in_snoc in H; rewrite sentIds_app, ?app_nil_r; destruct H as [H|H]; try discriminate; try (apply in_or_app; left); auto.
      injection H as -> -> ->. eapply sent_in; eauto.
  Qed.

  Lemma freed_step n s pre o post jobs cb cb' next t :
    inv n s (pre ++ mkClient None o :: post) jobs cb next t -> o = true -> callback cb (length pre) = (None, cb') ->
    inv n s (pre ++ mkClient None false :: post) jobs cb' next (t ++ [Freed (length pre)]).
  Proof.
    intros I -> Hcb. set (c := length pre) in *. assert (Hc : nth_error (pre ++ mkClient None true :: post) c = Some (mkClient None true)) by (unfold c; rewrite nth_error_app2, Nat.sub_diag by lia; reflexivity).
    destruct (i_client _ _ _ _ _ _ _ I _ _ Hc) as [Hw Hf]. cbn in Hw, Hf. symmetry in Hw.
    assert (Hfr : ~ In (Freed c) t) by (rewrite <- Hf; discriminate).
    assert (Hcn : c < n). { rewrite <- (i_len _ _ _ _ _ _ _ I), app_length. cbn. unfold c. lia. }
    constructor.
    - eapply good_freed; eauto. apply I.
    - rewrite <- (i_len _ _ _ _ _ _ _ I). now rewrite !app_length.
    - intros i. rewrite sentIds_app, app_nil_r. apply I.
    - intros a x. rewrite (nth_error_upd pre (mkClient None true)), working_app. fold c. destruct (Nat.eqb_spec a c) as [->|E].
      + intros H. injection H as <-. cbn. split; [congruence|]. rewrite in_snoc. intuition.
      + intros H. destruct (i_client _ _ _ _ _ _ _ I _ _ H) as [H1 H2]. split; [exact H1|]. rewrite in_snoc, H2. split; [now left|intros [A|A]; [exact A|]]. injection A as ->. congruence.
    - apply I.
    - intros x Hx. destruct (i_jobs _ _ _ _ _ _ _ I x Hx) as (a & A1 & A2 & A3). exists a. split; [exact A1|]. split; [apply in_snoc; now left|].
      destruct (jState x); [exact A3| |].
      + rewrite working_app, receivedIds_app, app_nil_r. exact A3.
      + destruct A3 as (r' & A3 & A4). exists r'. split; [exact A3|]. apply in_snoc. now left.
    - intros a i. rewrite working_app. apply I.
    - intros i. rewrite sentIds_app, returnedIds_app, !app_nil_r. apply I.
    - intros x Hx. rewrite returnedIds_app, app_nil_r. now apply I.
  Qed.

  Lemma takeDone_spec l j l' : takeDone J R l = Some (j, l') -> jState j = JDone /\ exists a b, l = a ++ j :: b /\ l' = a ++ b.
  Proof.
    revert l'. induction l as [|x l IH]; intros l' H; cbn in H; [discriminate|]. destruct (jState x) eqn:Es.
    - destruct (takeDone J R l) as [[y r]|]; [|discriminate]. injection H as -> <-. destruct (IH r eq_refl) as (H1 & a & b & -> & ->). split; [exact H1|]. exists (x :: a), b. auto.
    - destruct (takeDone J R l) as [[y r]|]; [|discriminate]. injection H as -> <-. destruct (IH r eq_refl) as (H1 & a & b & -> & ->). split; [exact H1|]. exists (x :: a), b. auto.
    - injection H as <- <-. split; [exact Es|]. exists [], l. auto.
  Qed.
  Lemma takeDone_none l : takeDone J R l = None -> forall j, In j l -> jState j <> JDone.
  Proof.
    induction l as [|x l IH]; intros H j Hj; [destruct Hj|]. cbn in H. destruct (jState x) eqn:Es; [| |discriminate];
      (destruct (takeDone J R l) as [[y r]|]; [discriminate|]; destruct Hj as [<-|Hj]; [congruence|auto]).
  Qed.

  Lemma returned_step n s cl jobs cb next t j l : inv n s cl jobs cb next t -> takeDone J R jobs = Some (j, l) ->
    inv n s cl l cb next (t ++ [Returned (jId j) (jData j) (jResult j)]).
  Proof.
    intros I H. apply takeDone_spec in H. destruct H as (Hs & a & b & -> & ->). pose proof (i_nodup _ _ _ _ _ _ _ I) as Hn. rewrite map_app in Hn. cbn in Hn.
    assert (Hj : In j (a ++ j :: b)) by (apply in_or_app; right; now left). pose proof (NoDup_remove_2 _ _ _ Hn) as Hnj. apply NoDup_remove_1 in Hn. rewrite <- map_app in Hn, Hnj.
    assert (Hin : forall x, In x (a ++ j :: b) <-> x = j \/ In x (a ++ b)) by (intros x; rewrite !in_app_iff; cbn; intuition).
    destruct (i_jobs _ _ _ _ _ _ _ I j Hj) as (c & C1 & C2 & C3). rewrite Hs in C3. destruct C3 as (r & Er & Hr). rewrite Er.
    constructor.
    - eapply good_returned; eauto; apply I. exact Hj.
    - apply I.
    - intros i. rewrite sentIds_app, app_nil_r. apply I.
    - intros x y H. rewrite working_app, in_snoc. destruct (i_client _ _ _ _ _ _ _ I _ _ H) as [H1 H2]. split; [exact H1|]. rewrite H2. intuition discriminate.
    - exact Hn.
    - intros x Hx. destruct (i_jobs _ _ _ _ _ _ _ I x) as (e & A1 & A2 & A3); [apply Hin; now right|]. exists e. split; [exact A1|]. split; [apply in_snoc; now left|].
      destruct (jState x); [exact A3| |].
      + rewrite working_app, receivedIds_app, app_nil_r. exact A3.
      + destruct A3 as (r' & A3 & A4). exists r'. split; [exact A3|]. apply in_snoc. now left.
    - intros x i. rewrite working_app. intros H. destruct (i_work _ _ _ _ _ _ _ I _ _ H) as (y & Y1 & Y2 & Y3). apply Hin in Y1. destruct Y1 as [->|Y1]; [congruence|]. eauto.
    - intros i. rewrite sentIds_app, returnedIds_app, app_nil_r, in_snoc. intros H. destruct (i_sent _ _ _ _ _ _ _ I i H) as [H1|H1]; [auto|].
      apply in_map_iff in H1. destruct H1 as (y & <- & Y). apply Hin in Y. destruct Y as [->|Y]; [auto|]. right. now apply in_map.
    - intros x Hx. rewrite returnedIds_app, in_snoc. intros [H|H]; [revert H; apply I; apply Hin; now right|]. apply Hnj. rewrite <- H. now apply in_map.
  Qed.

  (** * The loops *)
  Section Loops.
    Variables (ready : nat -> bool) (resp : nat -> R).
    Lemma collect_inv n s cl : forall pre jobs cb next t, inv n s (pre ++ cl) jobs cb next t ->
      exists cl' jobs' t', collect J R ready resp (length pre) cl jobs t = Ok (cl', jobs', t') /\ inv n s (pre ++ cl') jobs' cb next t' /\
        length (receivedIds t') = length (receivedIds t) + completedTotal ready (length pre) cl.
    Proof.
      induction cl as [|c cl IH]; intros pre jobs cb next t I; cbn [collect completedTotal].
      - exists [], jobs, t. split; [reflexivity|]. split; [exact I|]. lia.
      - assert (K : forall x jobs1 t1, inv n s (pre ++ x :: cl) jobs1 cb next t1 -> exists cl' jobs' t', (let* (r', jobs2, t2) := collect J R ready resp (length pre + 1) cl jobs1 t1 in Ok (x :: r', jobs2, t2)) = Ok (cl', jobs', t') /\ inv n s (pre ++ cl') jobs' cb next t' /\
          length (receivedIds t') = length (receivedIds t1) + completedTotal ready (length pre + 1) cl).
        { intros x jobs1 t1 I1. destruct (IH (pre ++ [x]) jobs1 cb next t1) as (cl' & jobs' & t' & E1 & E2 & E3); [now rewrite <- app_assoc|].
          rewrite app_length in E1, E3. cbn [length] in E1, E3. exists (x :: cl'), jobs', t'. rewrite E1. cbn [bind]. split; [reflexivity|]. split; [rewrite <- app_assoc in E2; exact E2|exact E3]. }
        destruct c as [[id|] o]; cbn [cJob cOpen]; [|apply K; exact I]. destruct (ready (length pre)); [|apply K; exact I].
        destruct (recv_step n s pre id o cl jobs cb next t (resp (length pre)) I) as (jobs' & E1 & I1). rewrite E1. cbn [bind].
        destruct (K _ _ _ I1) as (cl' & jobs2 & t' & E2 & E3 & E4). exists cl', jobs2, t'. split; [exact E2|]. split; [exact E3|]. rewrite E4, receivedIds_app, app_length. cbn. lia.
    Qed.
  End Loops.
  Definition settled (cl : list client) : Prop := forall x, In x cl -> cJob x = None -> cOpen x = false.
  Lemma start_inv n s cl : forall pre jobs cb next t, inv n s (pre ++ cl) jobs cb next t -> settled pre ->
    exists cl' jobs' cb' next' t', start J R S callback (length pre) cl jobs cb next t = Ok (cl', jobs', cb', next', t') /\
      inv n s (pre ++ cl') jobs' cb' next' t' /\ settled (pre ++ cl') /\ receivedIds t' = receivedIds t.
  Proof.
    induction cl as [|c cl IH]; intros pre jobs cb next t I Hs; cbn [start].
    - exists [], jobs, cb, next, t. split; [reflexivity|]. split; [exact I|]. split; [now rewrite app_nil_r|reflexivity].
    - assert (K : forall x jobs1 cb1 next1 t1, inv n s (pre ++ x :: cl) jobs1 cb1 next1 t1 -> (cJob x = None -> cOpen x = false) ->
        exists cl' jobs' cb' next' t', (let* (r', jobs2, cb2, next2, t2) := start J R S callback (length pre + 1) cl jobs1 cb1 next1 t1 in Ok (x :: r', jobs2, cb2, next2, t2)) = Ok (cl', jobs', cb', next', t') /\
          inv n s (pre ++ cl') jobs' cb' next' t' /\ settled (pre ++ cl') /\ receivedIds t' = receivedIds t1).
      { intros x jobs1 cb1 next1 t1 I1 Hx. destruct (IH (pre ++ [x]) jobs1 cb1 next1 t1) as (cl' & jobs' & cb' & next' & t' & E1 & E2 & E3 & E4); [now rewrite <- app_assoc| |].
        { intros y Hy. apply in_snoc in Hy. destruct Hy as [Hy| ->]; auto. }
        rewrite app_length in E1. cbn [length] in E1. exists (x :: cl'), jobs', cb', next', t'. rewrite E1. cbn [bind]. rewrite <- app_assoc in E2, E3. auto. }
      destruct c as [[id|] o]; cbn [cJob cOpen].
      + apply K; [exact I|discriminate].
      + destruct o.
        * destruct (callback cb (length pre)) as [[d|] cb'] eqn:Ecb.
          -- unfold jobStateSet. cbn. pose proof (sent_step n s pre true cl jobs cb cb' next t d I eq_refl Ecb) as I1.
             destruct (K _ _ _ _ _ I1) as (cl' & jobs' & cb2 & next' & t' & E1 & E2 & E3 & E4); [discriminate|]. eexists _, _, _, _, _. split; [exact E1|].
             split; [exact E2|]. split; [exact E3|]. rewrite E4, receivedIds_app. apply app_nil_r.
          -- pose proof (freed_step n s pre true cl jobs cb cb' next t I eq_refl Ecb) as I1.
             destruct (K _ _ _ _ _ I1) as (cl' & jobs' & cb2 & next' & t' & E1 & E2 & E3 & E4); [reflexivity|]. eexists _, _, _, _, _. split; [exact E1|].
             split; [exact E2|]. split; [exact E3|]. rewrite E4, receivedIds_app. apply app_nil_r.
        * apply K; [exact I|reflexivity].
  Qed.

  (** * Operations *)
  Notation par := (par J R S).
  Notation pState := (pState J R S). Notation pClients := (pClients J R S). Notation pJobs := (pJobs J R S). Notation pCb := (pCb J R S).
  Notation pNext := (pNext J R S). Notation pTrace := (pTrace J R S).
  Definition Inv (n : nat) (s : S) (p : par) : Prop :=
    inv n s (pClients p) (pJobs p) (pCb p) (pNext p) (pTrace p) /\ (pState p <> JPending -> settled (pClients p)) /\ (pState p = JDone -> pJobs p = []).

  Lemma Inv_new n s : Inv n s (parNew J R S n s).
  Proof.
    split; [|split; [|discriminate]].
    - constructor; cbn.
      + constructor.
      + apply repeat_length.
      + intros i. lia.
      + intros c x H. apply nth_error_In in H. apply repeat_spec in H. subst x. cbn. split; [reflexivity|]. split; [discriminate|tauto].
      + constructor.
      + tauto.
      + discriminate.
      + tauto.
      + tauto.
    - cbn. congruence.
  Qed.

  Lemma process_inv n s p ready resp : Inv n s p -> pState p <> JDone ->
    exists p' k, process J R S callback ready resp p = Ok (p', k) /\ Inv n s p' /\ length (receivedIds (pTrace p')) = length (receivedIds (pTrace p)) + k.
  Proof.
    intros (I & Hs & Hd) Hst. unfold process.
    assert (C : exists cl jobs t, (if 0 <? completedTotal ready 0 (pClients p) then collect J R ready resp 0 (pClients p) (pJobs p) (pTrace p) else Ok (pClients p, pJobs p, pTrace p)) = Ok (cl, jobs, t) /\
      inv n s cl jobs (pCb p) (pNext p) t /\ length (receivedIds t) = length (receivedIds (pTrace p)) + completedTotal ready 0 (pClients p)).
    { destruct (Nat.ltb_spec 0 (completedTotal ready 0 (pClients p))) as [L|L].
      - destruct (collect_inv ready resp n s (pClients p) [] (pJobs p) (pCb p) (pNext p) (pTrace p) I) as (cl & jobs & t & E1 & E2 & E3). exists cl, jobs, t. auto.
      - exists (pClients p), (pJobs p), (pTrace p). split; [reflexivity|]. split; [exact I|]. lia. }
    destruct C as (cl & jobs & t & E1 & I1 & L1).
    destruct (start_inv n s cl [] jobs (pCb p) (pNext p) t I1) as (cl2 & jobs2 & cb2 & next2 & t2 & E2 & I2 & S2 & L2); [intros x []|].
    exists (mkPar J R S JRunning cl2 jobs2 cb2 next2 t2), (completedTotal ready 0 (pClients p)). split.
    - destruct (pState p); [| |congruence]; rewrite E1; cbn [bind]; cbn [length] in E2; rewrite E2; reflexivity.
    - split; [split; [exact I2|split; [intros _; exact S2|discriminate]]|]. cbn [ParallelModel.pTrace]. now rewrite L2.
  Qed.
  Lemma result_inv n s p : Inv n s p -> pState p = JRunning ->
    exists p' o, result J R S p = Ok (p', o) /\ Inv n s p' /\
      match o with Some j => pTrace p' = pTrace p ++ [Returned (jId j) (jData j) (jResult j)] /\ takeDone J R (pJobs p) <> None | None => p' = p /\ takeDone J R (pJobs p) = None end.
  Proof.
    intros (I & Hs & Hd) Hst. unfold result. rewrite Hst. destruct (takeDone J R (pJobs p)) as [[j l]|] eqn:E.
    - eexists _, _. split; [reflexivity|]. split; [|split; [reflexivity|discriminate]]. split; [exact (returned_step _ _ _ _ _ _ _ _ _ I E)|]. cbn. split; [intros _; apply Hs; congruence|discriminate].
    - exists p, None. split; [reflexivity|]. split; [|auto]. split; auto.
  Qed.
  Lemma done_inv n s p : Inv n s p -> pState p <> JPending ->
    exists p' b, done J R S p = Ok (p', b) /\ Inv n s p' /\ pTrace p' = pTrace p /\ (b = true <-> pState p' = JDone) /\ (b = true <-> pJobs p = []).
  Proof.
    intros (I & Hs & Hd) Hst. unfold done. destruct (pState p) eqn:E; [congruence| |].
    - destruct (pJobs p) eqn:Ej.
      + eexists _, _. split; [reflexivity|]. split; [split; [rewrite <- Ej in I |- *; exact I|]|].
        * cbn. split; [intros _; apply Hs; congruence|auto].
        * cbn. split; [reflexivity|]. split; split; auto.
      + exists p, false. split; [reflexivity|]. split; [split; [rewrite Ej; exact I|split; [intros _; apply Hs; congruence|congruence]]|]. split; [reflexivity|]. rewrite E. split; split; discriminate.
    - exists p, true. split; [reflexivity|]. split; [split; [exact I|split; [intros _; apply Hs; congruence|auto]]|]. split; [reflexivity|]. split; split; auto.
  Qed.
  Lemma runOps_inv n s l : forall p p', Inv n s p -> runOps J R S callback l p = Ok p' -> Inv n s p'.
  Proof.
    induction l as [|o l IH]; intros p p' I H; cbn [runOps] in H; [now injection H as <-|].
    destruct (runOp J R S callback o p) as [p1| |] eqn:E; try discriminate H. cbn [bind] in H. apply (IH p1); [|exact H]. clear H IH.
    destruct o as [ready resp| |]; cbn [runOp] in E.
    - destruct (pState p) eqn:Es; [| |unfold process in E; rewrite Es in E; discriminate];
        (destruct (process_inv n s p ready resp I) as (p2 & k & E2 & I2 & _); [congruence|]; rewrite E2 in E; cbn in E; now injection E as <-).
    - destruct (pState p) eqn:Es; [unfold result in E; rewrite Es in E; discriminate| |unfold result in E; rewrite Es in E; discriminate].
      destruct (result_inv n s p I Es) as (p2 & k & E2 & I2 & _). rewrite E2 in E. cbn in E. now injection E as <-.
    - destruct (pState p) eqn:Es; [unfold done in E; rewrite Es in E; discriminate| |];
        (destruct (done_inv n s p I) as (p2 & k & E2 & I2 & _); [congruence|]; rewrite E2 in E; cbn in E; now injection E as <-).
  Qed.
  Definition reachable (n : nat) (s : S) (p : par) : Prop := exists l, runOps J R S callback l (parNew J R S n s) = Ok p.
  Lemma reachable_inv n s p : reachable n s p -> Inv n s p.
  Proof. intros (l & H). eapply runOps_inv; [|exact H]. apply Inv_new. Qed.

  (** * Consequences *)
  Lemma good_nodup n s t s' : good n s t s' -> NoDup (sentIds t) /\ NoDup (receivedIds t) /\ NoDup (returnedIds t).
  Proof.
    assert (K : forall (l : list nat) x, NoDup l -> ~ In x l -> NoDup (l ++ [x])).
    { intros l x H1 H2. apply (Permutation_NoDup (Permutation_cons_append l x)). now constructor. }
    induction 1 as [|t s1 s2 c i d H IH Hc Hw Hf Hcb Hi|t s1 s2 c H IH Hc Hw Hf Hcb|t s1 c i r H IH Hw Hr|t s1 c i d r H IH Hs Hr Hn];
      rewrite ?sentIds_app, ?receivedIds_app, ?returnedIds_app, ?app_nil_r; [cbn; repeat split; constructor|..]; destruct IH as (I1 & I2 & I3); auto.
  Qed.
  Lemma good_chain n s t s' : good n s t s' -> incl (receivedIds t) (sentIds t) /\ incl (returnedIds t) (receivedIds t).
  Proof.
    assert (K : forall (l m : list nat) x, incl l m -> incl l (m ++ [x])) by (intros l m x H y Hy; apply in_or_app; left; auto).
    assert (K2 : forall (l m : list nat) x, incl l m -> In x m -> incl (l ++ [x]) m) by (intros l m x H Hx y Hy; apply in_snoc in Hy; destruct Hy as [Hy| ->]; auto).
    induction 1 as [|t s1 s2 c i d H IH Hc Hw Hf Hcb Hi|t s1 s2 c H IH Hc Hw Hf Hcb|t s1 c i r H IH Hw Hr|t s1 c i d r H IH Hs Hr Hn];
      rewrite ?sentIds_app, ?receivedIds_app, ?returnedIds_app, ?app_nil_r; [cbn; split; intros x []|..]; destruct IH as (I1 & I2); split; auto.
    - apply K2; [exact I1|]. destruct (working_sent _ _ _ _ H _ _ Hw) as (_ & d & Hd). eapply sent_in; eauto.
    - apply K2; [exact I2|]. apply in_flat_map. eexists. split; [exact Hr|]. cbn. auto.
  Qed.
  Lemma done_all n s p p' : Inv n s p -> done J R S p = Ok (p', true) ->
    pTrace p' = pTrace p /\ (forall c, c < n -> working (pTrace p) c = None /\ In (Freed c) (pTrace p)) /\
    (forall i, In i (sentIds (pTrace p)) -> In i (returnedIds (pTrace p))).
  Proof.
    intros HI H. assert (Hst : pState p <> JPending) by (intros E; unfold done in H; rewrite E in H; discriminate).
    destruct (done_inv n s p HI Hst) as (p2 & b & E & _ & Et & _ & Hb). rewrite E in H. injection H as -> ->. split; [exact Et|].
    destruct HI as (I & Hs & _). assert (Hj : pJobs p = []) by now apply Hb. split.
    - intros c Hc. assert (Hw : working (pTrace p) c = None).
      { destruct (working (pTrace p) c) as [i|] eqn:Ew; [|reflexivity]. destruct (i_work _ _ _ _ _ _ _ I _ _ Ew) as (j & Hin & _). rewrite Hj in Hin. destruct Hin. }
      split; [exact Hw|]. destruct (nth_error (pClients p) c) as [x|] eqn:Ex.
      + destruct (i_client _ _ _ _ _ _ _ I _ _ Ex) as [H1 H2]. apply H2. apply Hs; [exact Hst|eapply nth_error_In; eauto|congruence].
      + apply nth_error_None in Ex. rewrite (i_len _ _ _ _ _ _ _ I) in Ex. lia.
    - intros i Hi. destruct (i_sent _ _ _ _ _ _ _ I i Hi) as [H1|H1]; [exact H1|]. rewrite Hj in H1. destruct H1.
  Qed.
  Lemma result_available n s p : Inv n s p -> pState p = JRunning ->
    (exists p' j, result J R S p = Ok (p', Some j)) <-> length (returnedIds (pTrace p)) < length (receivedIds (pTrace p)).
  Proof.
    intros HI Hst. destruct (result_inv n s p HI Hst) as (p' & o & E & HI' & Ho). destruct HI as (I & _). pose proof (i_good _ _ _ _ _ _ _ I) as G.
    destruct (good_nodup _ _ _ _ G) as (N1 & N2 & N3). destruct (good_chain _ _ _ _ G) as (C1 & C2). rewrite E. split.
    - intros (p2 & j & H). injection H as -> ->. destruct Ho as [Ht Hd].
      destruct HI' as (I' & _). pose proof (i_good _ _ _ _ _ _ _ I') as G'. destruct (good_nodup _ _ _ _ G') as (_ & _ & N3'). destruct (good_chain _ _ _ _ G') as (_ & C2').
      rewrite Ht in *. rewrite receivedIds_app, app_nil_r in C2'. pose proof (NoDup_incl_length N3' C2') as L. rewrite returnedIds_app, app_length in L. cbn in L. lia.
    - intros L. destruct o as [j|]; [eauto|]. exfalso. destruct Ho as [_ Hn]. 
      assert (incl (receivedIds (pTrace p)) (returnedIds (pTrace p))).
      { intros i Hi. destruct (i_sent _ _ _ _ _ _ _ I i (C1 _ Hi)) as [H|H]; [exact H|exfalso]. apply in_map_iff in H. destruct H as (j & <- & Hj).
        destruct (i_jobs _ _ _ _ _ _ _ I j Hj) as (c & _ & _ & Hm). destruct (jState j) eqn:Es; [exact Hm|tauto|]. exact (takeDone_none _ Hn j Hj Es). }
      pose proof (NoDup_incl_length N2 H). lia.
  Qed.
End Proof.
