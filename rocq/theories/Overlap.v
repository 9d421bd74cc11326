(** Reading requests that run while documents are added: net/http serves every request
    in its own goroutine, and AddDocuments (document.go:287-454) holds no lock between
    its documents.

    Simplification: the requests run between two documents of the addition, before the
    first one or before Flush, and as a whole.  (ConcSearch.v has queries that see single
    steps of an addition.) *)
From Coq Require Import String.
From Verif Require Import Base F32 Graph Insert Persist Client.

(** document.go:345-444; [rs] are the requests that run before the next document,
    before the one after it, and so on. *)
Fixpoint loop_during (lookup : bool) (keys : list string) (rs : list (list creq)) (st : coll) (indexId : N)
  (docs : list (option docin * dorc)) : coll * N * res unit :=
  let st := run_reqs st (hd [] rs) in
  match docs with
  | [] => (st, indexId, Ok tt)
  | (d, o) :: docs' =>
      match add_doc lookup keys st indexId d o with
      | (st', indexId', Ok _) => loop_during lookup keys (tl rs) st' indexId' docs'
      | r => r
      end
  end.
(** document.go:287-454 *)
Definition add_during (R : rorc) (lookup : bool) (keys : list string) (rs : list (list creq))
  (docs : list (option docin * dorc)) (st : coll) : coll * res unit :=
  match open_coll R st with
  | (st1, Ok _) =>
      if negb (c_reg st1) then (st1, Panic)
      else
        match loop_during lookup keys rs st1 (first_id (c_h st1)) docs with
        | (st2, indexId, Ok _) => finish_add R st2 indexId
        | (st2, _, r) => (st2, r)
        end
  | r => r
  end.
