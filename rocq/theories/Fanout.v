(** The goroutines that fetch the documents of an answer, with their WaitGroup and the
    channel of errors.

    [Client.fetch_docs] runs the fetches in some order, each at once, and then reads
    the first error.  Here every goroutine takes its steps on its own, and the caller
    may return while others still run.

    Simplifications: wg.Add and the start of the goroutine behind it are one step, and
    so are the loop's increment and test.  A panic inside DocFind is an error here, as
    in Client.v. *)
From Verif Require Import Base F32 JsonNum PQ Graph Search Insert InsertHist Persist Client.

(** One fetching goroutine (document.go:529-543, 626-639): not started, before its
    DocFind, before its send, before wg.Done, ended. *)
Inductive wkr := WNew | WFind | WSend (e : err) | WDone | WEnd.
(** The goroutine that closes the channel (document.go:545-548, 641-644): not started,
    in wg.Wait, before close, ended. *)
Inductive clo := CNone | CWait | CClose | CEnd.
(** The caller: in the loop that starts the goroutines (document.go:527-544, 624-640),
    in the receive (550, 646), returned. *)
Inductive caller := MSpawn (i : nat) | MRecv | MRet (r : res (list (option sdoc))).
(** documents, errCh and wg (document.go:524-526, 621-623); [f_panic]: a send on a
    closed channel, a second close or a negative counter. *)
Record fan := mkF {
  f_w : list wkr; f_slots : list (option sdoc);
  f_buf : list err; f_closed : bool; f_wg : nat;
  f_clo : clo; f_main : caller; f_panic : bool
}.

(** Not in the code: who takes the next step. *)
Inductive agent := AMain | AClo | AWork (i : nat).

(** document.go:524-526, 621-623 *)
Definition fan_start (ids : list N) : fan :=
  mkF (repeat WNew (length ids)) (repeat None (length ids)) [] false 0 CNone (MSpawn 0) false.

(** One step; [None]: blocked or ended.  Lines at the types above; the capacity of the
    channel is len(ids) (document.go:526, 623). *)
Definition fan_step (find : nat -> N -> res sdoc) (ids : list N) (s : fan) (a : agent) : option fan :=
  match a with
  | AMain =>
      match f_main s with
      | MSpawn i =>
          if Nat.ltb i (length ids) then
            Some (mkF (upd (f_w s) i WFind) (f_slots s) (f_buf s) (f_closed s) (S (f_wg s)) (f_clo s) (MSpawn (S i)) (f_panic s))
          else
            Some (mkF (f_w s) (f_slots s) (f_buf s) (f_closed s) (f_wg s) CWait MRecv (f_panic s))
      | MRecv =>
          match f_buf s with
          | e :: b => Some (mkF (f_w s) (f_slots s) b (f_closed s) (f_wg s) (f_clo s) (MRet (Err e)) (f_panic s))
          | [] =>
              if f_closed s then
                Some (mkF (f_w s) (f_slots s) [] (f_closed s) (f_wg s) (f_clo s) (MRet (Ok (f_slots s))) (f_panic s))
              else None
          end
      | MRet _ => None
      end
  | AClo =>
      match f_clo s with
      | CWait =>
          if Nat.eqb (f_wg s) 0 then
            Some (mkF (f_w s) (f_slots s) (f_buf s) (f_closed s) (f_wg s) CClose (f_main s) (f_panic s))
          else None
      | CClose =>
          Some (mkF (f_w s) (f_slots s) (f_buf s) true (f_wg s) CEnd (f_main s) (f_panic s || f_closed s))
      | CNone | CEnd => None
      end
  | AWork i =>
      match nth_error (f_w s) i, nth_error ids i with
      | Some WFind, Some id =>
          match find i id with
          | Ok d => Some (mkF (upd (f_w s) i WDone) (upd (f_slots s) i (Some d)) (f_buf s) (f_closed s) (f_wg s) (f_clo s) (f_main s) (f_panic s))
          | Err e => Some (mkF (upd (f_w s) i (WSend e)) (f_slots s) (f_buf s) (f_closed s) (f_wg s) (f_clo s) (f_main s) (f_panic s))
          | _ => Some (mkF (upd (f_w s) i (WSend EOther)) (f_slots s) (f_buf s) (f_closed s) (f_wg s) (f_clo s) (f_main s) (f_panic s))
          end
      | Some (WSend e), Some _ =>
          if f_closed s then
            Some (mkF (f_w s) (f_slots s) (f_buf s) (f_closed s) (f_wg s) (f_clo s) (f_main s) true)
          else if Nat.ltb (length (f_buf s)) (length ids) then
            Some (mkF (upd (f_w s) i WDone) (f_slots s) (f_buf s ++ [e]) (f_closed s) (f_wg s) (f_clo s) (f_main s) (f_panic s))
          else None
      | Some WDone, Some _ =>
          Some (mkF (upd (f_w s) i WEnd) (f_slots s) (f_buf s) (f_closed s) (pred (f_wg s)) (f_clo s) (f_main s)
                    (f_panic s || Nat.eqb (f_wg s) 0))
      | _, _ => None
      end
  end.
(** Not in the code: a schedule; who cannot step is passed over. *)
Fixpoint fan_run (find : nat -> N -> res sdoc) (ids : list N) (s : fan) (sched : list agent) : fan :=
  match sched with
  | [] => s
  | a :: sched' => fan_run find ids (match fan_step find ids s a with Some s' => s' | None => s end) sched'
  end.
