(** The event loop on a well-formed dump. *)
From Verif Require Import Base BaseFacts Data Discrete Convert ConvertFacts DiscreteIO SpecIO IOFacts IOProofs EventLoop.

(** the loop bodies one after the other *)
Fixpoint event_walk {S} (body : nat -> S -> event -> res (S * option Z)) (test : nat) (st : S) (evs : list event) : res (S * option Z) :=
  match evs with
  | [] => Ok (st, None)
  | e :: evs =>
    do (st1, code) <- body test st e;
    match code with Some x => Ok (st1, Some x) | None => event_walk body (Datatypes.S test) st1 evs end
  end.

Lemma event_loop_walk {S} (body : nat -> S -> event -> res (S * option Z)) evs : forall n test st s, Forall event_wf evs -> in_file s = mkFile (dump evs) false ->
  event_loop (Ok true) body n test st s = event_walk body test st (map event_kept (firstn n evs)).
Proof.
  induction evs as [|e evs IH]; intros [|n] test st s HW HF; try reflexivity.
  - cbn [event_loop firstn map event_walk]. unfold next_event. rewrite HF. cbn [f_eof dump map concat]. unfold event_read, fread. cbn [f_rest length Nat.min firstn skipn bind negb Nat.eqb Nat.ltb Nat.leb f_eof orb]. unfold ret. reflexivity.
  - inversion HW; subst. cbn [event_loop firstn map event_walk]. unfold next_event. rewrite HF. cbn [f_eof dump map concat]. fold (dump evs). rewrite event_codec by assumption. cbn [bind in_event].
    destruct (body test st (event_kept e)) as [[st1 [code|]]|]; cbn [bind]; try reflexivity. apply IH; [assumption|reflexivity].
Qed.
(** with the missing return statement undefined, the first event is *)
Lemma event_loop_missing {S} (body : nat -> S -> event -> res (S * option Z)) e evs n test st s : event_wf e -> in_file s = mkFile (dump (e :: evs)) false ->
  event_loop (UB MissingReturn) body (Datatypes.S n) test st s = UB MissingReturn.
Proof. intros HW HF. cbn [event_loop]. unfold next_event. rewrite HF. cbn [f_eof dump map concat]. fold (dump evs). rewrite event_codec by assumption. reflexivity. Qed.
Lemma open_file g bytes : inputs_open g (Some bytes) = Ok (mkIn (mkFile bytes false) (event0 g) 0). Proof. reflexivity. Qed.
