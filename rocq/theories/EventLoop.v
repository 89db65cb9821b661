(** The loop shared by the test programs that read whole events: fetch the next
    event or stop, run the body. *)
From Verif Require Import Base Data Discrete Convert DiscreteIO.

(** e.g. regionizer/regionizer_test.cpp:119-122, 302 and
    vertexing/bram_hist_vtx_test.cpp:32-35, 122: [body test state event] is the
    rest of the loop body, which may make main return ([Some code]). *)
Fixpoint event_loop {S} (tail : res bool) (body : nat -> S -> event -> res (S * option Z)) (n test : nat) (st : S) (s : inputs) : res (S * option Z) :=
  match n with
  | O => Ok (st, None)
  | Datatypes.S n' =>
    do (ok, s1) <- next_event tail s;
    if ok : bool then
      do (st1, code) <- body test st (in_event s1);
      match code with
      | Some x => Ok (st1, Some x)
      | None => event_loop tail body n' (Datatypes.S test) st1 s1
      end
    else Ok (st, None)
  end.
