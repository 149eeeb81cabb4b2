(** C71: the groups of options hold the keys that are used *)
From Coq Require Import Lia String Sorting.Sorted.
From Verif Require Import Base Str RegNameModel OptNameModel OptLoadModel OptLoadProof OptGroupModel OptGroupSpec OptGroupProof.
Open Scope Z_scope.
Open Scope list_scope.

(** An option that was given and is not valid for the command is an error, whatever its value and key *)
Theorem C71_valid valid t :
  (checkValid valid t = Ok tt /\ forall o k v, In (o, k, v) t -> valid o = true) \/
  (checkValid valid t = Err EOther /\ exists o k v, In (o, k, v) t /\ valid o = false).
Proof.
  unfold checkValid. destruct (forallb _ t) eqn:E.
  - left. split; [reflexivity|]. intros o k v H. exact (proj1 (forallb_forall _ _) E _ H).
  - right. split; [reflexivity|]. induction t as [|[[o k] v] t IH]; [discriminate|]. cbn [forallb fst] in E. destruct (valid o) eqn:V.
    + destruct (IH E) as (o' & k' & v' & H1 & H2). exists o', k', v'. split; [right; exact H1|exact H2].
    + exists o, k, v. split; [left; reflexivity|exact V].
Qed.
Print Assumptions C71_valid.

(** A key of a group is used exactly if an option of the group, which is valid for the command, has a value for the key that was not reset *)
Theorem C71_used rules valid t g k : used rules valid t g k = true <-> keyUsed rules valid t g k.
Proof. apply used_spec. Qed.
Print Assumptions C71_used.

(** The map from index to key never writes outside its memory.  It has the keys used in order, each once, key 1 if none is used, and key 1 always for pg. *)
Theorem C71_map rules valid t g pg : exists map, indexMap pg (used rules valid t g) = Ok map /\ keysOf pg (keyUsed rules valid t g) map /\ (1 <= length map)%nat.
Proof.
  destruct (indexMap_ok pg (used rules valid t g)) as (map & E & [S1 S2] & L). exists map. split; [exact E|]. split; [|exact L]. split; [exact S1|]. intros k. rewrite S2. split.
  - intros [[H1 H2]|[-> [H|H]]]; [left; split; [exact H1|apply used_spec; exact H2]|right; split; [reflexivity|left; exact H]|right; split; [reflexivity|right]]. intros j Hj K. apply (H j Hj). apply used_spec. exact K.
  - intros [[H1 H2]|[-> [H|H]]]; [left; split; [exact H1|apply used_spec; exact H2]|right; split; [reflexivity|left; exact H]|right; split; [reflexivity|right]]. intros j Hj K. apply (H j Hj). apply used_spec. exact K.
Qed.
Print Assumptions C71_map.

(** Removing the indexes that have only defaults leaves in the arrays of all the options of the group exactly the values of the indexes kept, in order, and the first index if none is kept *)
Theorem C71_values A keep map (arrays : list (list A)) : map <> [] -> (forall l, In l arrays -> List.length l = List.length map) ->
  let '(total, _, a) := reduce keep map arrays in
  total = List.length (left keep map) /\ (1 <= total)%nat /\ Forall2 (fun l l' => firstn total l' = left keep l /\ List.length (left keep l) = total) arrays a.
Proof.
  intros N L. unfold reduce. assert (P : (1 <= List.length map)%nat) by (destruct map; [congruence|cbn; lia]).
  assert (F : Forall2 (fun l0 l => List.length l0 = List.length map /\ firstn (List.length map) l = now keep (List.length map) l0) arrays arrays).
  { clear - L. induction arrays as [|l a IH]; constructor; [|apply IH; intros x Hx; apply L; right; exact Hx]. assert (Q : List.length l = List.length map) by (apply L; left; reflexivity). split; [exact Q|]. rewrite <- Q, firstn_all. symmetry. apply now_all. }
  pose proof (compact_ok keep (List.length map) map map arrays arrays (List.length map) (Nat.le_refl _) P P ltac:(rewrite now_all; reflexivity) ltac:(rewrite now_all, firstn_all; reflexivity) F) as C.
  destruct (compact keep (List.length map) (List.length map) map arrays) as [[total m] a]. destruct C as (C1 & C2 & C3). split; [exact C1|]. split.
  - rewrite C1. unfold left. destruct (kept keep 0 map); [|cbn; lia]. destruct map; [congruence|cbn; lia].
  - assert (LL : forall l, In l arrays -> List.length (left keep l) = total).
    { intros l Hl. rewrite C1. pose proof (kept_length keep l map 0 (L l Hl)) as K. unfold left. destruct (kept keep 0 l), (kept keep 0 map); try discriminate K; [rewrite !firstn_length, (L l Hl); reflexivity|exact K]. }
    clear - C3 LL. induction C3 as [|l l' arrays a H C3 IH]; constructor; [split; [exact H|apply LL; left; reflexivity]|apply IH; intros x Hx; apply LL; right; exact Hx].
Qed.
Print Assumptions C71_values.

(** The keys follow the values.  What is missing: if one index is left and it is not the first one, its key is lost, see C71_key_refuted. *)
Theorem C71_key_partial A keep map (arrays : list (list A)) : map <> [] -> (forall l, In l arrays -> List.length l = List.length map) ->
  let '(total, m, _) := reduce keep map arrays in
  firstn total m = (if (total =? 1)%nat && negb (keep 0%nat) then [0] else left keep map).
Proof.
  intros N L. unfold reduce. assert (P : (1 <= List.length map)%nat) by (destruct map; [congruence|cbn; lia]).
  assert (F : Forall2 (fun l0 l => List.length l0 = List.length map /\ firstn (List.length map) l = now keep (List.length map) l0) arrays arrays).
  { clear - L. induction arrays as [|l a IH]; constructor; [|apply IH; intros x Hx; apply L; right; exact Hx]. assert (Q : List.length l = List.length map) by (apply L; left; reflexivity). split; [exact Q|]. rewrite <- Q, firstn_all. symmetry. apply now_all. }
  pose proof (compact_ok keep (List.length map) map map arrays arrays (List.length map) (Nat.le_refl _) P P ltac:(rewrite now_all; reflexivity) ltac:(rewrite now_all, firstn_all; reflexivity) F) as C.
  destruct (compact keep (List.length map) (List.length map) map arrays) as [[total m] a]. destruct C as (C1 & C2 & _). unfold finalMap. destruct m as [|k r].
  - assert (T0 : total = 0%nat) by (rewrite C1, <- C2; destruct total; reflexivity). rewrite T0 in *. cbn [Nat.eqb andb firstn] in *. exact C2.
  - destruct (Nat.eqb_spec total 1) as [T|T]; cbn [andb]; [|exact C2]. rewrite T in *. destruct (keep 0%nat); cbn [negb andb]; [exact C2|]. destruct (Z.eqb_spec k 0) as [->|K]; reflexivity.
Qed.
Print Assumptions C71_key_partial.

(** So repo1 with only defaults and repo2 with a path leaves the values of repo2 under the key of repo1: --repo=2 is an error and --repo=1 is the repository of repo2 *)
Theorem C71_key_refuted : exists keep map (arrays : list (list Z)), StronglySorted Z.lt map /\ (forall l, In l arrays -> List.length l = List.length map) /\
  left keep map = [1] /\
  let '(total, m, a) := reduce keep map arrays in
  total = 1%nat /\ firstn total m = [0] /\ a = [[20]] /\ defaultIndex total m (Some 2) = Err EOptionInvalidValue /\ defaultIndex total m (Some 1) = Ok 0%nat.
Proof.
  exists (fun n => (n =? 1)%nat), [0; 1], [[10; 20]]. split; [repeat constructor; lia|]. split; [intros l [<-|[]]; reflexivity|]. split; [reflexivity|]. vm_compute. auto 10.
Qed.
Print Assumptions C71_key_refuted.

(** The default index is the index of the key asked for and the first index if none is asked for; a key that the group does not have is an error *)
Theorem C71_default total map asked : NoDup map -> (total <= List.length map)%nat ->
  (asked = None -> defaultIndex total map asked = Ok 0%nat) /\
  (forall key, asked = Some key -> forall i, defaultIndex total map asked = Ok i <-> (i < total)%nat /\ nth_error map i = Some (key - 1)) /\
  (forall key, asked = Some key -> (defaultIndex total map asked = Err EOptionInvalidValue <-> ~ In (key - 1) (firstn total map))).
Proof.
  intros ND LE. split; [intros ->; reflexivity|]. split.
  - intros key -> i. unfold defaultIndex. pose proof (findKey_spec map 0 total (key - 1)) as F. destruct (findKey 0 total map (key - 1)) as [i'|].
    + destruct F as (j & -> & Hj & E). cbn [Nat.add]. split; [intros [= <-]; split; assumption|]. intros [H1 H2]. f_equal. apply (proj1 (NoDup_nth_error map) ND); [apply nth_error_Some; congruence|congruence].
    + split; [discriminate|]. intros [H1 H2]. exfalso. exact (F i H1 H2).
  - intros key ->. unfold defaultIndex. pose proof (findKey_spec map 0 total (key - 1)) as F.
    assert (IN : In (key - 1) (firstn total map) <-> exists j, (j < total)%nat /\ nth_error map j = Some (key - 1)).
    { clear. revert total. induction map as [|k map IH]; intros [|total]; cbn [firstn In].
      - split; [intros []|intros (j & H & _); lia].
      - split; [intros []|intros ([|j] & _ & H); discriminate H].
      - split; [intros []|intros (j & H & _); lia].
      - rewrite IH. split; [intros [->|(j & H1 & H2)]; [exists 0%nat; split; [lia|reflexivity]|exists (S j); split; [lia|exact H2]]|].
        intros ([|j] & H1 & H2); [left; injection H2; auto|right; exists j; split; [lia|exact H2]]. }
    rewrite IN. destruct (findKey 0 total map (key - 1)) as [i'|].
    + destruct F as (j & -> & Hj & E). split; [discriminate|]. intros H. exfalso. apply H. exists j. split; assumption.
    + split; [intros _ (j & H1 & H2); exact (F j H1 H2)|reflexivity].
Qed.
Print Assumptions C71_default.

(** Three repositories, the second with only defaults *)
Example C71_nontrivial :
  indexMap false (fun k => (k =? 0) || (k =? 3) || (k =? 7)) = Ok [0; 3; 7] /\ indexMap true (fun k => k =? 2) = Ok [0; 2] /\ indexMap false (fun _ => false) = Ok [0] /\
  (let '(total, m, a) := reduce (fun n => negb (n =? 1)%nat) [0; 3; 7] [[10; 20; 30]; [1; 2; 3]] in total = 2%nat /\ firstn total m = [0; 7] /\ List.map (firstn total) a = [[10; 30]; [1; 3]]) /\
  defaultIndex 2 [0; 7] (Some 8) = Ok 1%nat /\ defaultIndex 2 [0; 7] (Some 4) = Err EOptionInvalidValue.
Proof. vm_compute. auto 20. Qed.
