(** C68: lists are sequences *)
From Coq Require Import Lia Sorting.Permutation Sorting.Sorted.
From Verif Require Import Base Str ListModel ListSpec ListProof ListProof2.
Open Scope Z_scope.
Open Scope list_scope.

Theorem C68_new (A : Type) o (cmp : A -> A -> Z) : holds (lstNew o cmp) [] /\ liOrder (lstNew o cmp) = o /\ liCmp (lstNew o cmp) = cmp.
Proof. split; [apply new_holds|split; reflexivity]. Qed.
Print Assumptions C68_new.

Theorem C68_get (A : Type) (l : lst A) xs : holds l xs ->
  (forall i, lstGet l i = match nth_error xs i with Some x => Ok x | None => Err EAssert end) /\
  (forall ys y, xs = ys ++ [y] -> lstGetLast l = Ok y) /\ (xs = [] -> lstGetLast l = Err EAssert /\ lstRemoveLast l = Err EAssert).
Proof.
  intros H. split; [intros i; apply get_holds; exact H|]. rewrite (getLast_holds l xs H). split.
  - intros ys y ->. rewrite rev_app_distr. reflexivity.
  - intros ->. split; [reflexivity|]. destruct H as (_ & Hn & _). unfold lstRemoveLast. rewrite Hn. reflexivity.
Qed.
Print Assumptions C68_get.

Theorem C68_insert (A : Type) (l : lst A) xs i x : holds l xs -> (i <= length xs)%nat -> Z.of_nat (length xs) < 2 ^ 31 ->
  exists l', lstInsert l i x = Ok l' /\ holds l' (firstn i xs ++ [x] ++ skipn i xs) /\ liCmp l' = liCmp l.
Proof.
  intros H Hi Hb. destruct (insert_holds l xs i x H Hi) as (l' & E & H' & Hc & _).
  { change (2 ^ 32) with 4294967296. change (2 ^ 31) with 2147483648 in Hb. lia. }
  exists l'. split; [exact E|]. split; [exact H'|exact Hc].
Qed.
Print Assumptions C68_insert.

Theorem C68_remove (A : Type) (l : lst A) xs i : holds l xs -> (i < length xs)%nat ->
  exists l', lstRemoveIdx l i = Ok l' /\ holds l' (firstn i xs ++ skipn (S i) xs) /\ liCmp l' = liCmp l /\ liOrder l' = liOrder l.
Proof.
  intros H Hi. destruct (removeIdx_holds l xs i H Hi) as (l' & E & H' & Hc & _ & _ & Ho). exists l'. split; [exact E|]. split; [exact H'|]. split; [exact Hc|exact Ho].
Qed.
Print Assumptions C68_remove.

Theorem C68_remove_value (A : Type) (l : lst A) xs x : holds l xs -> isOrder (liCmp l) ->
  exists r b l', foundAt (liOrder l) (liCmp l) xs x r /\ lstRemove l x = Ok (b, l') /\ liCmp l' = liCmp l /\ liOrder l' = liOrder l /\
    match r with Some i => b = true /\ holds l' (firstn i xs ++ skipn (S i) xs) | None => b = false /\ holds l' xs end.
Proof.
  intros H HO. destruct (find_holds l xs x H HO) as (r & E & F). exists r. unfold lstRemove. rewrite E. cbn [bind]. destruct r as [i|].
  - assert (I : (i < length xs)%nat) by (destruct F as (y & Hy & _); apply nth_error_Some; congruence). destruct (removeIdx_holds l xs i H I) as (l' & E' & H' & Hc & _ & _ & Ho). exists true, l'. rewrite E'. cbn [bind].
    split; [exact F|]. split; [reflexivity|]. split; [exact Hc|]. split; [exact Ho|]. split; [reflexivity|exact H'].
  - exists false, l. auto 10.
Qed.
Print Assumptions C68_remove_value.

Theorem C68_find (A : Type) (l : lst A) xs x : holds l xs -> isOrder (liCmp l) ->
  exists r, lstFind l x = Ok r /\ foundAt (liOrder l) (liCmp l) xs x r /\ lstExists l x = Ok (match r with Some _ => true | None => false end).
Proof.
  intros H HO. destruct (find_holds l xs x H HO) as (r & E & F). exists r. split; [exact E|]. split; [exact F|]. unfold lstExists. rewrite E. reflexivity.
Qed.
Print Assumptions C68_find.

Theorem C68_sort (A : Type) qs (l : lst A) xs o : sorts qs -> holds l xs -> isOrder (liCmp l) ->
  exists l' ys, lstSort qs l o = Ok l' /\ holds l' ys /\ Permutation ys xs /\ sortedAs o (liCmp l) ys /\ liOrder l' = o /\ liCmp l' = liCmp l.
Proof.
  intros Q H HO. destruct (sort_holds qs l xs o Q H HO) as (l' & ys & E & H' & P & S & Hc & _ & _ & Ho). exists l', ys.
  split; [exact E|]. split; [exact H'|]. split; [exact P|]. split; [exact S|]. split; [exact Ho|exact Hc].
Qed.
Print Assumptions C68_sort.

Theorem C68_comparators : isOrder cmpZ /\ isOrder cmpStr /\ (forall a b, cmpZ a b = 0 <-> a = b) /\ (forall a b, cmpStr a b = 0 <-> a = b).
Proof.
  split; [exact cmpZ_order|]. split; [exact cmpStr_order|]. split.
  - intros a b. unfold cmpZ. destruct (Z.ltb_spec a b), (Z.ltb_spec b a); lia.
  - intros a b. unfold cmpStr. pose proof (strCmp_eq a b) as [E1 E2]. destruct (strCmp a b) eqn:E; [split; auto| |]; (split; [discriminate|intros Q; specialize (E2 Q); discriminate]).
Qed.
Print Assumptions C68_comparators.

(** Any sequence of calls: no call is undefined, the list is what the same calls make of the sequence, and there is never more memory than for twice the items *)
Theorem C68_run (A : Type) qs o (cmp : A -> A -> Z) m ops : sorts qs -> isOrder cmp -> Z.of_nat m < 2 ^ 31 -> careful m (mkA [] cmp false) ops ->
  exists l s, lstRun qs (lstNew o cmp) ops = Ok l /\ arun (mkA [] cmp false) ops s /\ holds l (aItems s) /\ liCmp l = aCmp s /\
              (length (liCells l) <= Nat.max 8 (2 * m))%nat.
Proof.
  intros Q HO Hm C. destruct (run_ok qs Q m Hm ops (lstNew o cmp) (mkA [] cmp false)) as (l & s & E & R & S).
  - split; [apply new_holds|]. cbn [aCmp aFront liCells lstNew length]. split; [reflexivity|]. split; [exact HO|]. split; [reflexivity|lia].
  - exact C.
  - exists l, s. split; [exact E|]. split; [exact S|]. destruct R as (R1 & R2 & _ & _ & R3). split; [exact R1|]. split; [exact R2|exact R3].
Qed.
Print Assumptions C68_run.

(** lstClear() frees the start of the list, which is not what was allocated once the first item has been removed *)
Theorem C68_clear_partial (A : Type) (l : lst A) xs : holds l xs -> liOff l = 0%nat -> exists l', lstClear l = Ok l' /\ holds l' [] /\ liCmp l' = liCmp l.
Proof.
  intros H Ho. rewrite (clear_step l xs H Ho). eexists. split; [reflexivity|]. split; [|reflexivity].
  split; [exists [], []; split; reflexivity|]. split; [reflexivity|]. intros _. cbn. destruct (liOrder l); constructor.
Qed.
Print Assumptions C68_clear_partial.

Theorem C68_clear_refuted : forall (A : Type) qs (cmp : A -> A -> Z) x y,
  lstRun qs (lstNew ONone cmp) [LAdd x; LAdd y; LRemoveIdx 0; LClear] = UB /\ lstRun qs (lstNew ONone cmp) [LAdd x; LRemoveLast; LClear] = UB.
Proof. intros. split; reflexivity. Qed.
Print Assumptions C68_clear_refuted.

Definition lnums : list (lop Z) := [LAdd 5; LAdd 3; LInsert 1 9; LAdd 7; LRemoveIdx 0; LAdd 1; LAdd 2; LAdd 4; LAdd 6; LAdd 8; LAdd 10; LSort OAsc; LRemove 7; LSort ODesc].
Example C68_nontrivial :
  match lstRun lsort (lstNew ONone cmpZ) lnums with
  | Ok l => map (lstGet l) (seq 0 9) = map Ok [10; 9; 8; 6; 4; 3; 2; 1] ++ [Err EAssert] /\ lstFind l 4 = Ok (Some 4%nat) /\ lstFind l 7 = Ok None /\ length (liCells l) = 16%nat /\ liOff l = 0%nat
  | _ => False
  end /\ sorts (@lsort Z) /\ careful 9 (mkA [] cmpZ false) (firstn 4 lnums).
Proof.
  split; [vm_compute; repeat split; reflexivity|]. split; [exact lsort_sorts|]. cbn. 
  repeat (first [lia | exact I | (intros ? S; inversion S; subst; clear S; cbn) | split]).
Qed.
