(** Lists with keys and the parts of the remapping as maps *)
From Verif Require Import Base Str NumModel ManifestPackModel ManifestModel LinkCheckModel CleanModel RemapModel RemapSpec.
From Coq Require Import Sorted.
Open Scope Z_scope.

Section Keyed.
Context {A : Type} (key : A -> str).
Definition updBy (n : str) (f : A -> A) (a : A) : A := if strEqb (key a) n then f a else a.
Lemma updBy_other n f a : key a <> n -> updBy n f a = a.
Proof. unfold updBy. destruct (strEqb_spec (key a) n); tauto. Qed.
Lemma updBy_same n f a : key a = n -> updBy n f a = f a.
Proof. unfold updBy. destruct (strEqb_spec (key a) n); tauto. Qed.
Lemma map_updBy_other n f l : ~ In n (map key l) -> map (updBy n f) l = l.
Proof.
  induction l as [|a l IH]; cbn [map In]; intros H; [reflexivity|]. rewrite updBy_other by tauto. rewrite IH by tauto. reflexivity.
Qed.
Lemma updFirst_map n f l : NoDup (map key l) -> In n (map key l) -> updFirst (fun a => strEqb (key a) n) f l = Some (map (updBy n f) l).
Proof.
  induction l as [|a l IH]; cbn [map In]; intros Hn Hi; [tauto|]. apply NoDup_cons_iff in Hn. destruct Hn as [H1 H2]. cbn [updFirst].
  destruct (strEqb_spec (key a) n) as [E|Hne].
  - rewrite updBy_same by exact E. rewrite map_updBy_other by (rewrite <- E; exact H1). reflexivity.
  - rewrite updBy_other by exact Hne. rewrite IH by tauto. reflexivity.
Qed.
Lemma updFirst_none n f l : ~ In n (map key l) -> updFirst (fun a => strEqb (key a) n) f l = None.
Proof.
  induction l as [|a l IH]; cbn [map In updFirst]; intros H; [reflexivity|]. destruct (strEqb_spec (key a) n); [tauto|]. rewrite IH by tauto. reflexivity.
Qed.
Lemma filter_all {B} (p : B -> bool) l : (forall b, In b l -> p b = true) -> filter p l = l.
Proof.
  induction l as [|b l IH]; cbn [filter]; intros H; [reflexivity|]. rewrite (H b) by (cbn; tauto). rewrite IH; [reflexivity|]. intros. apply H. cbn. tauto.
Qed.
Lemma removeFirst_filter n l : NoDup (map key l) -> In n (map key l) ->
  removeFirst (fun a => strEqb (key a) n) l = Some (filter (fun a => negb (strEqb (key a) n)) l).
Proof.
  induction l as [|a l IH]; cbn [map In]; intros Hn Hi; [tauto|]. apply NoDup_cons_iff in Hn. destruct Hn as [H1 H2]. cbn [removeFirst filter].
  destruct (strEqb_spec (key a) n) as [E|Hne]; cbn [negb].
  - rewrite filter_all; [reflexivity|]. intros b Hb. destruct (strEqb_spec (key b) n); [|reflexivity]. exfalso. apply H1. rewrite E, <- e.
    apply in_map. exact Hb.
  - rewrite IH by tauto. reflexivity.
Qed.
Lemma find_key n l : match find (fun a => strEqb (key a) n) l with
                     | Some a => In a l /\ key a = n
                     | None => ~ In n (map key l)
                     end.
Proof.
  induction l as [|a l IH]; cbn [find map In]; [tauto|]. destruct (strEqb_spec (key a) n) as [E|E]; [tauto|].
  destruct (find _ l); tauto.
Qed.
Lemma find_key_in a l : NoDup (map key l) -> In a l -> find (fun b => strEqb (key b) (key a)) l = Some a.
Proof.
  intros Hn Hi. pose proof (find_key (key a) l) as H. destruct (find _ l) as [b|].
  - destruct H as [Hb E]. f_equal. revert Hn Hi Hb E. clear. induction l as [|c l IH]; cbn [map In]; [tauto|].
    intros Hn Ha Hb E. apply NoDup_cons_iff in Hn. destruct Hn as [H1 H2].
    destruct Ha as [->|Ha], Hb as [->|Hb]; [reflexivity| | |now apply IH].
    + exfalso. apply H1. rewrite <- E. now apply in_map.
    + exfalso. apply H1. rewrite E. now apply in_map.
  - exfalso. apply H. now apply in_map.
Qed.
Lemma key_inj a b l : NoDup (map key l) -> In a l -> In b l -> key a = key b -> a = b.
Proof.
  intros Hn Ha Hb E. pose proof (find_key_in a l Hn Ha) as H1. pose proof (find_key_in b l Hn Hb) as H2. rewrite E in H1. congruence.
Qed.
Lemma updBy_key n f a : (forall a, key (f a) = key a) -> key (updBy n f a) = key a.
Proof. intros H. unfold updBy. destruct (strEqb _ _); [apply H|reflexivity]. Qed.
End Keyed.

Lemma kvGet_in l k v : kvGet l k = Some v -> In (k, v) l.
Proof.
  unfold kvGet. pose proof (find_key (@fst str str) k l) as H. destruct (find _ l) as [[a b]|]; cbn; [|discriminate].
  cbn in H. destruct H as [H ->]. intros E. injection E as <-. exact H.
Qed.
Lemma kvGet_some l k v : NoDup (map fst l) -> In (k, v) l -> kvGet l k = Some v.
Proof. intros Hn Hi. unfold kvGet. pose proof (find_key_in (@fst str str) (k, v) l Hn Hi) as H. cbn [fst] in H. rewrite H. reflexivity. Qed.
Lemma kvGet_none l k : kvGet l k = None <-> forall v, ~ In (k, v) l.
Proof.
  unfold kvGet. pose proof (find_key (@fst str str) k l) as H. destruct (find _ l) as [[a b]|]; cbn.
  - cbn in H. destruct H as [H ->]. split; [discriminate|]. intros Hv. exfalso. exact (Hv _ H).
  - split; [|tauto]. intros _ v Hv. apply H. change k with (fst (k, v)). now apply in_map.
Qed.
Lemma kvGet_key l k : In k (map fst l) -> exists v, kvGet l k = Some v.
Proof.
  intros H. destruct (kvGet l k) as [v|] eqn:E; [now exists v|]. exfalso. apply in_map_iff in H. destruct H as ((a & b) & <- & H).
  exact (proj1 (kvGet_none _ _) E b H).
Qed.

Lemma cman_eta m : mkCman (cmTargets m) (cmPaths m) (cmLinks m) (cmFiles m) = m.
Proof. now destruct m. Qed.
Lemma tUpdate m n p f : NoDup (map mtName (cmTargets m)) -> In n (map mtName (cmTargets m)) ->
  manifestTargetUpdate m n p f = Ok (withTargets m (map (updBy mtName n (setTarget p f)) (cmTargets m))).
Proof. intros H1 H2. unfold manifestTargetUpdate. rewrite (updFirst_map mtName) by assumption. reflexivity. Qed.
Lemma lUpdate m n d : NoDup (map mlName (cmLinks m)) -> In n (map mlName (cmLinks m)) ->
  manifestLinkUpdate m n d = Ok (withLinks m (map (updBy mlName n (setLink d)) (cmLinks m))).
Proof. intros H1 H2. unfold manifestLinkUpdate. rewrite (updFirst_map mlName) by assumption. reflexivity. Qed.

Definition baseF (o : ropts) (t : mtarget) : mtarget := updBy mtName pgData (fun t => setTarget (roPg o) (mtFile t) t) t.
Lemma setTarget_id t : setTarget (mtPath t) (mtFile t) t = t.
Proof. now destruct t. Qed.
Lemma mapBase_ok o m : NoDup (map mtName (cmTargets m)) -> (exists b, In b (cmTargets m) /\ mtName b = pgData /\ mtFile b = None) ->
  mapBase o m = Ok (withTargets m (map (baseF o) (cmTargets m))).
Proof.
  intros Hn (b & Hb & En & Ef). unfold mapBase, manifestTargetFind. pose proof (find_key_in mtName b _ Hn Hb) as H. rewrite En in H. rewrite H. cbn [bind].
  destruct (strEqb_spec (mtPath b) (roPg o)) as [E|E].
  - f_equal. transitivity (withTargets m (map (fun t => t) (cmTargets m))); [unfold withTargets; rewrite map_id; symmetry; apply cman_eta|].
    unfold withTargets. f_equal. apply map_ext_in.
    intros a Ha. unfold baseF, updBy. destruct (strEqb_spec (mtName a) pgData) as [E'|E']; [|reflexivity].
    rewrite (key_inj mtName a b _ Hn Ha Hb) by congruence. rewrite <- E. now rewrite setTarget_id.
  - rewrite En. rewrite tUpdate; [|exact Hn|rewrite <- En; now apply in_map]. f_equal. unfold withTargets. f_equal. apply map_ext_in.
    intros a Ha. unfold baseF, updBy. destruct (strEqb_spec (mtName a) pgData) as [E'|E']; [|reflexivity].
    rewrite (key_inj mtName a b _ Hn Ha Hb) by congruence. now rewrite Ef.
Qed.
