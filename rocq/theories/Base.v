(** Shared vocabulary: results of C functions, bytes, bit helpers.

    This file models no particular source file.  [res] is the outcome of a C function of pgBackRest:
    [Ok] normal return, [Err k] a THROW of error type [k] (src/common/error/error.c), [UB] undefined behaviour in C
    (for example a read outside an array). *)
From Coq Require Export List ZArith Lia Bool Arith.
From Coq Require Export ZifyBool ZifyNat ZifyN.
Export ListNotations.
Ltac Zify.zify_post_hook ::= Z.div_mod_to_equations.

(** Error kinds that the modelled functions throw (src/build/error/error.yaml names). *)
Inductive errkind :=
| EAssert | EFormat | EOptionInvalidValue | EBackupSetInvalid | EArchiveDuplicate | EArchiveMismatch | EFileMissing
| EFileOpen | EFileRead | EFileWrite | EChecksum | EClock | ECommand | ERepoInvalid | EPgRunning | EPathNotEmpty
| ECrypto | EArchiveTimeout | EOther | EJsonFormat.

Inductive res (A : Type) :=
| Ok (a : A)
| Err (e : errkind)
| UB.
Arguments Ok {A} a.
Arguments Err {A} e.
Arguments UB {A}.

Definition bind {A B} (r : res A) (f : A -> res B) : res B :=
  match r with Ok a => f a | Err e => Err e | UB => UB end.
Notation "'let*' x ':=' r 'in' k" := (bind r (fun x => k)) (at level 200, x pattern, r at level 100, k at level 200).

(** A byte / C [unsigned char] value. *)
Definition isByte (b : Z) : Prop := (0 <= b < 256)%Z.
Definition bytes (l : list Z) : Prop := Forall isByte l.

(** Little helper lemmas on bits, used by the codecs. *)
Open Scope Z_scope.

Lemma lor_disjoint_add a b : Z.land a b = 0 -> Z.lor a b = a + b.
Proof. intros H. rewrite <- Z.lxor_lor by exact H. symmetry. apply Z.add_nocarry_lxor; exact H. Qed.

Lemma lor_mul_add x y k : 0 <= k -> 0 <= y < 2 ^ k -> Z.lor (x * 2 ^ k) y = x * 2 ^ k + y.
Proof.
  intros Hk Hy. apply lor_disjoint_add.
  apply Z.bits_inj'. intros n Hn. rewrite Z.bits_0, Z.land_spec, <- Z.shiftl_mul_pow2 by lia.
  destruct (Z.ltb_spec n k).
  - rewrite Z.shiftl_spec_low by lia. reflexivity.
  - replace (Z.testbit y n) with false; [apply andb_false_r|].
    symmetry. destruct (Z.eq_dec y 0) as [->|Hy0]; [apply Z.bits_0|].
    apply Z.bits_above_log2; [lia|]. apply Z.log2_lt_pow2; [lia|].
    apply Z.lt_le_trans with (2 ^ k); [lia|]. apply Z.pow_le_mono_r; lia.
Qed.

Lemma lor_add_mul x y k : 0 <= k -> 0 <= y < 2 ^ k -> Z.lor y (x * 2 ^ k) = x * 2 ^ k + y.
Proof. intros. rewrite Z.lor_comm. apply lor_mul_add; assumption. Qed.

Lemma land_ones_mod x k : 0 <= k -> Z.land x (2 ^ k - 1) = x mod 2 ^ k.
Proof. intros. rewrite <- Z.land_ones by assumption. f_equal. rewrite Z.ones_equiv. lia. Qed.

(** All bytes, for finite sweeps. *)
Definition allBytes : list Z := map Z.of_nat (seq 0 256).
Lemma allBytes_spec b : isByte b -> In b allBytes.
Proof.
  intros H. unfold allBytes. apply in_map_iff. exists (Z.to_nat b). unfold isByte in H. split; [lia|].
  apply in_seq. lia.
Qed.
Lemma byte_sweep (P : Z -> bool) : forallb P allBytes = true -> forall b, isByte b -> P b = true.
Proof. intros H b Hb. rewrite forallb_forall in H. apply H. apply allBytes_spec, Hb. Qed.
