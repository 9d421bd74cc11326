(** The buffered log writer, pkg/hnsw/bufiowriter.go.

    Bytes are [N].  The buffer is the list of its first [n] bytes
    ([b.buf[0:b.n]]); what lies behind them is never read.  The file is the list
    of bytes it holds.  [os.File.Write] is an oracle [w]: [w k p] is the answer
    of the [k]-th call on bytes [p], the number of bytes taken (capped at the
    length of [p], as the io.Writer contract says) and an error.  Nothing else is
    assumed of it: it may take any number of bytes with or without an error. *)
From Verif Require Import Base.

(** Errors: one the file reported, or io.ErrShortWrite (bufiowriter.go:76). *)
Inductive werr := FileError (e : N) | ShortWrite.

Definition file_oracle := nat -> list N -> nat * option N.

(** The file with the number of calls made on it. bufiowriter.go:30-35. *)
Record file := mkFile { f_data : list N; f_calls : nat }.

(** One call of os.File.Write (library; called at bufiowriter.go:74, 106). *)
Definition file_write (w : file_oracle) (f : file) (p : list N)
  : file * nat * option werr :=
  let '(n, e) := w (f_calls f) p in
  let n := Nat.min n (length p) in
  (mkFile (f_data f ++ firstn n p) (S (f_calls f)), n, option_map FileError e).

(** bufiowriter.go:30-35, the bufWriter struct. *)
Record writer := mkWriter {
  w_err : option werr;
  w_buf : list N;            (* b.buf[0:b.n] *)
  w_size : nat;              (* len(b.buf) *)
  w_file : file
}.

(** bufiowriter.go:21 (defaultBufSize) and 40-48, NewWriterSize.  The size is
    an int. *)
Definition default_size : nat := N.to_nat 4096.

(** bufiowriter.go:40-48. *)
Definition new_writer_size (f : file) (size : Z) : writer :=
  mkWriter None [] (if (size <=? 0)%Z then default_size else Z.to_nat size) f.

(** bufiowriter.go:60-64, Reset. *)
Definition reset (b : writer) (f : file) : writer :=
  mkWriter None [] (w_size b) f.

(** bufiowriter.go:91, 94. *)
Definition available (b : writer) : nat := w_size b - length (w_buf b).
Definition buffered (b : writer) : nat := length (w_buf b).

(** bufiowriter.go:67-88, Flush.  The three cases of lines 79-82 (nothing
    written, some, all) all leave the unwritten rest at the front. *)
Definition flush (w : file_oracle) (b : writer) : writer * option werr :=
  match w_err b with
  | Some e => (b, Some e)
  | None =>
      match w_buf b with
      | [] => (b, None)
      | _ :: _ =>
          let '(f, n, e) := file_write w (w_file b) (w_buf b) in
          let e := match e with
                   | None => if Nat.ltb n (length (w_buf b)) then Some ShortWrite else None
                   | Some e => Some e
                   end in
          match e with
          | Some e => (mkWriter (Some e) (skipn n (w_buf b)) (w_size b) f, Some e)
          | None => (mkWriter None [] (w_size b) f, None)
          end
      end
  end.

(** Appending to the buffer: [n = copy(b.buf[b.n:], p); b.n += n]
    (bufiowriter.go:108-109, 118-119, 173-174, 182-183); gives back [n]. *)
Definition copy_in (b : writer) (p : list N) : writer * nat :=
  let n := Nat.min (available b) (length p) in
  (mkWriter (w_err b) (w_buf b ++ firstn n p) (w_size b) (w_file b), n).

(** bufiowriter.go:100-122, Write.  [nn] is the count so far; the result is the
    count and the error.  Each round takes one unit of fuel. *)
Fixpoint write_loop (fuel : nat) (w : file_oracle) (b : writer) (p : list N) (nn : nat)
  : option (writer * nat * option werr) :=
  match fuel with
  | O => None
  | S fuel =>
      if Nat.ltb (available b) (length p)
         && match w_err b with None => true | Some _ => false end
      then
        match w_buf b with
        | [] =>
            let '(f, n, e) := file_write w (w_file b) p in
            write_loop fuel w (mkWriter e [] (w_size b) f) (skipn n p) (nn + n)
        | _ :: _ =>
            let '(b, n) := copy_in b p in
            let '(b, _) := flush w b in
            write_loop fuel w b (skipn n p) (nn + n)
        end
      else
        match w_err b with
        | Some e => Some (b, nn, Some e)
        | None => let '(b, n) := copy_in b p in Some (b, nn + n, None)
        end
  end.

(** bufiowriter.go:170-186, WriteString, on the bytes of the string. *)
Fixpoint write_string_loop (fuel : nat) (w : file_oracle) (b : writer) (p : list N)
    (nn : nat) : option (writer * nat * option werr) :=
  match fuel with
  | O => None
  | S fuel =>
      if Nat.ltb (available b) (length p)
         && match w_err b with None => true | Some _ => false end
      then
        let '(b, n) := copy_in b p in
        let '(b, _) := flush w b in
        write_string_loop fuel w b (skipn n p) (nn + n)
      else
        match w_err b with
        | Some e => Some (b, nn, Some e)
        | None => let '(b, n) := copy_in b p in Some (b, nn + n, None)
        end
  end.

(** bufiowriter.go:125-135, WriteByte.  The count is 1 or 0; Go returns the
    error only. *)
Definition write_byte (w : file_oracle) (b : writer) (c : N)
  : writer * nat * option werr :=
  match w_err b with
  | Some e => (b, 0, Some e)
  | None =>
      let '(b, e) := if Nat.leb (available b) 0 then flush w b else (b, None) in
      match e with
      | Some e => (b, 0, Some e)
      | None => (mkWriter (w_err b) (w_buf b ++ [c]) (w_size b) (w_file b), 1, None)
      end
  end.

(** utf8.EncodeRune of the standard library (called at bufiowriter.go:161; the
    conversion string(r) at line 158 gives the same bytes).  Surrogates and
    values above U+10FFFF become U+FFFD. *)
Definition utf8_encode (r : Z) : list N :=
  let bad := [239; 191; 189]%N in
  let c := Z.to_N r in
  if (r <? 0)%Z then bad
  else if (c <? 128)%N then [c]
  else if (c <? 2048)%N then [192 + c / 64; 128 + c mod 64]%N
  else if ((55296 <=? c) && (c <=? 57343))%N then bad
  else if (c <? 65536)%N then [224 + c / 4096; 128 + (c / 64) mod 64; 128 + c mod 64]%N
  else if (c <=? 1114111)%N
       then [240 + c / 262144; 128 + (c / 4096) mod 64; 128 + (c / 64) mod 64; 128 + c mod 64]%N
  else bad.

(** byte(r) of a rune (bufiowriter.go:141): the low eight bits. *)
Definition byte_of (r : Z) : N := Z.to_N (r mod 256).

(** bufiowriter.go:139-164, WriteRune. *)
Definition write_rune (fuel : nat) (w : file_oracle) (b : writer) (r : Z)
  : option (writer * nat * option werr) :=
  if (r <? 128)%Z then Some (write_byte w b (byte_of r))
  else
    match w_err b with
    | Some e => Some (b, 0, Some e)
    | None =>
        let put b := let s := utf8_encode r in
                     Some (mkWriter (w_err b) (w_buf b ++ s) (w_size b) (w_file b),
                           length s, None) in
        if Nat.ltb (available b) 4 then
          let '(b, _) := flush w b in
          match w_err b with
          | Some e => Some (b, 0, Some e)
          | None => if Nat.ltb (available b) 4
                    then write_string_loop fuel w b (utf8_encode r) 0
                    else put b
          end
        else put b
    end.

(** Calls a client can make. bufiowriter.go:60-186. *)
Inductive wcall :=
| CWrite (p : list N)
| CString (p : list N)
| CByte (c : N)
| CRune (r : Z)
| CFlush.

(** One call.  [fuel] bounds the rounds of the loops of Write and WriteString. *)
Definition wstep (fuel : nat) (w : file_oracle) (b : writer) (c : wcall)
  : option (writer * nat * option werr) :=
  match c with
  | CWrite p => write_loop fuel w b p 0
  | CString p => write_string_loop fuel w b p 0
  | CByte c => Some (write_byte w b c)
  | CRune r => write_rune fuel w b r
  | CFlush => let '(b, e) := flush w b in Some (b, 0, e)
  end.

(** A sequence of calls with their answers. *)
Fixpoint wrun (fuel : nat) (w : file_oracle) (b : writer) (cs : list wcall)
  : option (writer * list (nat * option werr)) :=
  match cs with
  | [] => Some (b, [])
  | c :: cs =>
      match wstep fuel w b c with
      | None => None
      | Some (b, n, e) =>
          match wrun fuel w b cs with
          | None => None
          | Some (b, rs) => Some (b, (n, e) :: rs)
          end
      end
  end.
