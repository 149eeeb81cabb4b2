(** What a chain of filters does to a stream of bytes, stated without buffers between the filters. *)
From Verif Require Import Base IoGroupModel.
Open Scope Z_scope.

Section Spec.
Variables (D : Type) (isOut : D -> bool) (inOut : D -> option (list Z) -> nat -> D * list Z) (procIn : D -> list Z -> D) (same : D -> bool)
  (done : D -> option bool).

(** What is expected of filters: which kind a filter is never changes, no more is written than there is room for, a filter does not ask for the same
    input before it has been given any nor when it is done, and filters without output never do. *)
Definition filterOk : Prop :=
  (forall d i n, isOut (fst (inOut d i n)) = isOut d) /\ (forall d s, isOut (procIn d s) = isOut d) /\
  (forall d i n, (length (snd (inOut d i n)) <= n)%nat) /\
  (forall d, done d = Some true -> same d = false) /\
  (forall d, isOut d = false -> same d = false /\ done d = None).
(** A filter that asks for the same input again has put something out. *)
Definition progress : Prop := forall d i n, (0 < n)%nat -> same (fst (inOut d i n)) = true -> snd (inOut d i n) <> [].
Definition fresh (d : D) : Prop := same d = false.

(** [ran d0 d s p o]: a filter that started as [d0] has been given the bytes [s] in any pieces, each as often as it asked for it, and has put out
    [o].  It is now [d].  [p] is a further piece that it asks for again. *)
Inductive ran (d0 : D) : D -> list Z -> option (list Z) -> list Z -> Prop :=
| ran_start : ran d0 d0 [] None []
| ran_piece d s o c n d' a : ran d0 d s None o -> c <> [] -> (0 < n)%nat -> inOut d (Some c) n = (d', a) ->
    ran d0 d' (if same d' then s else s ++ c) (if same d' then Some c else None) (o ++ a)
| ran_again d s o c n d' a : ran d0 d s (Some c) o -> (0 < n)%nat -> inOut d (Some c) n = (d', a) ->
    ran d0 d' (if same d' then s else s ++ c) (if same d' then Some c else None) (o ++ a).
(** Afterwards it is told that there is no more, until it is done. *)
Inductive flushing (d0 : D) : D -> list Z -> list Z -> Prop :=
| flush_start d s o : ran d0 d s None o -> flushing d0 d s o
| flush_step d s o n d' a : flushing d0 d s o -> finished D same done d = false -> (0 < n)%nat -> inOut d None n = (d', a) -> flushing d0 d' s (o ++ a).
Definition complete (d0 d : D) (s o : list Z) : Prop := flushing d0 d s o /\ finished D same done d = true.
(** A filter without output is given all pieces. *)
Inductive took (d0 : D) : D -> list Z -> Prop :=
| took_start : took d0 d0 []
| took_piece d s c : took d0 d s -> c <> [] -> took d0 (procIn d c) (s ++ c).

(** [chain ds s ds' t]: filters that started as [ds] turn the stream [s] into the stream [t] and end as [ds']: each is given exactly what the one
    before has put out, and a filter without output what the next one is given. *)
Inductive chain : list D -> list Z -> list D -> list Z -> Prop :=
| chain_nil s : chain [] s [] s
| chain_out d d' ds ds' s o t : isOut d = true -> complete d d' s o -> chain ds o ds' t -> chain (d :: ds) s (d' :: ds') t
| chain_in d d' ds ds' s t : isOut d = false -> took d d' s -> chain ds s ds' t -> chain (d :: ds) s (d' :: ds') t.

(** * Reads and writes *)
Variables (bufferNew : D) (V : Type) (drvRead : V -> nat -> bool -> V * list Z) (drvEof : V -> bool) (blk : bool) (size : nat).
Local Notation ioread := (ioread D V).
Local Notation ioRead := (ioRead D isOut inOut procIn same done V drvRead drvEof blk size).
Local Notation ioReadSmall := (ioReadSmallLoop D isOut inOut procIn same done V drvRead drvEof blk size).
Local Notation ioReadLine := (ioReadLine D isOut inOut procIn same done V drvRead drvEof blk size).
Local Notation ioReadNewOpen := (ioReadNewOpen D isOut bufferNew V size).
(** What the driver of a read has delivered: [s] between [v0] and [v] *)
Inductive delivered (v0 : V) : V -> list Z -> Prop :=
| del_start : delivered v0 v0 []
| del_read v s n b v' c : delivered v0 v s -> drvEof v = false -> drvRead v n b = (v', c) -> delivered v0 v' (s ++ c).
(** Any calls after opening; the list is all that they have taken from the stream.  A line without a linefeed, at the end of the file, is not taken:
    outputPos is 0 then. *)
Inductive calls (v0 : V) (ds : list D) : ioread -> list Z -> Prop :=
| calls_open : calls v0 ds (ioReadNewOpen v0 ds) []
| calls_read st r fuel cap buf st' a : calls v0 ds st r -> ioRead fuel st cap buf = Ok (st', buf ++ a) -> calls v0 ds st' (r ++ a)
| calls_small st r fuel cap buf st' a : calls v0 ds st r -> ioReadSmall fuel st cap buf = Ok (st', buf ++ a) -> calls v0 ds st' (r ++ a)
| calls_line st r fuel allowEof st' line : calls v0 ds st r -> ioReadLine fuel st allowEof = Ok (st', line) ->
    calls v0 ds st' (r ++ if (ioUsed D V st' =? 0)%nat then [] else line ++ [10]).
(** Calls of ioRead() only, each into an empty buffer *)
Inductive reads (v0 : V) (ds : list D) : ioread -> list Z -> Prop :=
| reads_open : reads v0 ds (ioReadNewOpen v0 ds) []
| reads_read st r fuel cap st' a : reads v0 ds st r -> ioRead fuel st cap [] = Ok (st', a) -> reads v0 ds st' (r ++ a).
(** Calls of ioWrite(); the list is all that has been given to them *)
Local Notation ioWrite := (ioWrite D isOut inOut procIn same done size).
Inductive writes (ds : list D) : iowrite D -> list Z -> Prop :=
| writes_open : writes ds (ioWriteNewOpen D isOut bufferNew size ds) []
| writes_write st s fuel c st' : writes ds st s -> ioWrite fuel st c = Ok st' -> writes ds st' (s ++ c).
End Spec.

(** A filter that stands for a function of its whole input, like compression or encryption with a given key. *)
Definition isFunction {D} inOut same done (d : D) (f : list Z -> list Z) : Prop := forall d' s o, complete D inOut same done d d' s o -> o = f s.
(** Such functions one after the other; None is a filter without output *)
Fixpoint compose (fs : list (option (list Z -> list Z))) (s : list Z) : list Z :=
  match fs with [] => s | None :: r => compose r s | Some f :: r => compose r (f s) end.
Definition areFunctions {D} isOut inOut same done (ds : list D) (fs : list (option (list Z -> list Z))) : Prop :=
  Forall2 (fun d f => match f with Some f => isOut d = true /\ isFunction inOut same done d f | None => isOut d = false end) ds fs.
