(** Filters and a driver for the examples: a filter that doubles each byte and adds a trailer when flushed, one that adds up the bytes, and the buffer
    filter.  Not part of the code. *)
From Verif Require Import Base IoGroupModel IoGroupSpec.
Open Scope Z_scope.

Inductive ex := ExBuf (b : nat * bool) | ExDouble (pos : nat) (sm : bool) (flushed : nat) | ExSum (n : Z).
Definition exTrailer : list Z := [100; 101; 102; 103; 104; 105].
Definition exIsOut (d : ex) : bool := match d with ExSum _ => false | _ => true end.
Definition exInOut (d : ex) (i : option (list Z)) (n : nat) : ex * list Z :=
  match d with
  | ExBuf b => let (b', a) := ioBufferProcess b i n in (ExBuf b', a)
  | ExDouble pos _ fl =>
      match i with
      | Some c =>
          let e := flat_map (fun x => [x; x]) c in
          let a := firstn n (skipn pos e) in
          if (pos + length a <? length e)%nat then (ExDouble (pos + length a) (negb (emptyB a)) fl, a) else (ExDouble 0 false fl, a)
      | None =>
          let a := firstn n (skipn fl exTrailer) in
          (ExDouble pos (negb (emptyB a) && (fl + length a <? 6)%nat) (fl + length a), a)
      end
  | ExSum n => (d, [])
  end.
Definition exProcIn (d : ex) (s : list Z) : ex := match d with ExSum n => ExSum (fold_left Z.add s n) | _ => d end.
Definition exSame (d : ex) : bool := match d with ExBuf b => snd b | ExDouble _ s _ => s | ExSum _ => false end.
Definition exDone (d : ex) : option bool := match d with ExDouble _ s fl => Some (negb s && (6 <=? fl)%nat) | _ => None end.
Definition exNew : ex := ExBuf (O, false).
Definition exDouble : ex := ExDouble 0 false 0.
Definition exRead (v : list Z) (n : nat) (_ : bool) : list Z * list Z := (skipn n v, firstn n v).
Definition exEof (v : list Z) : bool := emptyB v.

Lemma ex_filterOk : filterOk ex exIsOut exInOut exProcIn exSame exDone.
Proof.
  split; [|split; [|split; [|split]]].
  - intros [[p b]|p s fl|n] i m; [|destruct i; unfold exInOut; [match goal with |- context [if ?b then _ else _] => destruct b end|]; reflexivity|reflexivity]. unfold exInOut. destruct (ioBufferProcess (p, b) i m) as [b' a]. reflexivity.
  - intros [b|p s fl|n] s'; reflexivity.
  - intros [[p b]|p s fl|n] i m.
    + unfold exInOut, ioBufferProcess. destruct i as [c|]; [|cbn; lia]. cbn [fst]. match goal with |- context [if ?b then _ else _] => destruct b end; cbn [snd]; rewrite firstn_length; lia.
    + unfold exInOut. destruct i as [c|]; [match goal with |- context [if ?b then _ else _] => destruct b end|]; cbn [snd]; rewrite firstn_length; lia.
    + cbn. lia.
  - intros [b|p s fl|n]; cbn; try discriminate. intros H. injection H as H. apply andb_prop in H as [H _]. now apply negb_true_iff.
  - intros [b|p s fl|n]; cbn; try discriminate. auto.
Qed.
Lemma ex_fresh : Forall (fresh ex exSame) [ExSum 0; exDouble; ExSum 0]. Proof. repeat constructor. Qed.
