(** Reading a file with retries.  Models storageRead() of src/storage/read.c:80-171.

    What a storage does in a try (complete the open, read) is a parameter: it gives some bytes, or it fails, maybe with bytes in the buffer already.
    After a failure the file is opened again; that may fail too, and else gives the contents of the file at that time.  Filters, the end of file and the
    version are left out. *)
From Verif Require Import Base MultiModel.
Open Scope Z_scope.

(** A driver opened with an offset and a limit: the bytes that it will give *)
Definition openAt (content : list Z) (off : Z) (lim : option Z) : list Z :=
  let from := skipn (Z.to_nat off) content in match lim with None => from | Some l => firstn (Z.to_nat l) from end.
(** What happens in one try.  [Fails k e again]: [k] bytes come, then error [e]; [again] is what opening the file again gives. *)
Inductive event := Gives (k : nat) | Fails (k : nat) (e : errkind) (again : list Z + errkind).
(** read.c:15-25 StorageRead: offset and limit asked for, bytes read, and the driver *)
Record reader := mkReader { dOff : Z; dLim : option Z; dRead : Z; dLeft : list Z }.
Definition isMissing (e : errkind) : bool := match e with EFileMissing => true | _ => false end.

(** read.c:96-164, the loop with [try] tries left.  [buf] is the buffer, with [room] bytes free at the begin and [begin] bytes used.  Gives the buffer, the
    bytes counted, the reader and the events left.  Without an event nothing happens (UB, never asked for). *)
Fixpoint tryRead (try : nat) (r : reader) (begin room : nat) (buf : list Z) (evs : list event) {struct evs} : res (list Z * Z * reader * list event) :=
  match evs with
  | [] => UB
  | Gives k :: t =>
      let n := Nat.min k (room - (length buf - begin)) in
      let buf2 := buf ++ firstn n (dLeft r) in
      let got := Z.of_nat (length buf2 - begin) in
      Ok (buf2, got, mkReader (dOff r) (dLim r) (wrap (dRead r + got)) (skipn n (dLeft r)), t)
  | Fails k e again :: t =>
      let buf2 := buf ++ firstn (Nat.min k (room - (length buf - begin))) (dLeft r) in
      match try with
      | S ((S _) as try2) =>
          if isMissing e then Err e
          else
            let buf3 := firstn begin buf2 in
            match again with inr e2 => Err e2 | inl content =>
            tryRead try2 (mkReader (dOff r) (dLim r) (dRead r) (openAt content (wrap (dOff r + dRead r)) (match dLim r with None => None | Some l => Some (wrap (l - dRead r)) end)))
              begin room buf3 t
            end
      | _ => Err e
      end
  end.
(** read.c:80-171 storageRead into a buffer with [buf] in it already and [room] bytes free *)
Definition storageRead (retry : bool) (r : reader) (buf : list Z) (room : nat) (evs : list event) : res (list Z * Z * reader * list event) :=
  tryRead (if retry then 3 else 1) r (length buf) room buf evs.
(** read.c:236-294 storageReadNew and open *)
Definition newReader (content : list Z) (off : Z) (lim : option Z) : reader := mkReader off lim 0 (openAt content off lim).
(** Reads into buffers with these bytes in them already and this room: the bytes added to them, one after another, and what is left *)
Fixpoint readFile (retry : bool) (r : reader) (bufs : list (list Z * nat)) (evs : list event) : res (list Z * reader) :=
  match bufs with
  | [] => Ok ([], r)
  | (buf, room) :: t =>
      let* (b, got, r2, evs2) := storageRead retry r buf room evs in
      let* (rest, r3) := readFile retry r2 t evs2 in
      Ok (skipn (length buf) b ++ rest, r3)
  end.
