(** Concrete events used to show that theorem hypotheses are satisfiable and as
    witnesses of refuted claims. *)
From Verif Require Import Base BaseFacts Data PFHw PFRef TestUtils SpecLink SpecPF SpecOut LinkFacts PFHwSpec PFWrap.

Ltac concrete := repeat (constructor || split); unfold inS, inU in *; cbn; try lia.

(** previous memory contents *)
Definition mem0 : pfmem := mkMem (fun _ => mkNe 1 2 3 4 5) (fun _ => mkNe 7 7 7 7 7) (fun _ => mkNe 9 9 9 1 9).

(** an event with an electron, a photon, a charged and a neutral hadron and a muon *)
Definition ev_em := [mkEm 400 20 100 0; em0].
Definition ev_had := [mkHad 300 50 50 0 false; mkHad 420 101 1 400 true; had0].
Definition ev_tk := [mkTk 200 10 50 52 7 true; mkTk 300 10 100 1 (-3) true; mkTk 150 15 (-100) (-100) 0 false; tk0].
Definition ev_mu := [mkMu 160 0 (-105) (-100); mu0].

Lemma ev_phys : phys ev_em ev_had ev_tk ev_mu.
Proof. concrete. Qed.
Lemma ev_no_overflow : no_overflow ev_em ev_tk.
Proof. concrete. Qed.
Lemma ev_fit : sums_fit ev_em ev_had ev_tk ev_mu (Some 131071) false.
Proof. exact (no_overflow_fits _ _ _ _ _ _ ev_phys ev_no_overflow). Qed.
Lemma ev_clean : clean_empty ev_tk.
Proof. concrete; discriminate. Qed.
Lemma ev_err : Forall (fun t => t_pterr t <> 1) ev_tk.
Proof. concrete; discriminate. Qed.

Lemma no_conflict em had track mu :
  existsb (fun '(h, c) => h_isem c && had_keep em had track mu true h) (indexed had) = false -> ~ KeepConflict em had track mu.
Proof.
  intros E (h & c & k & e & Hh & HI & He & HB & HC).
  assert (X : existsb (fun '(h, c) => h_isem c && had_keep em had track mu true h) (indexed had) = true); [|congruence].
  apply existsb_exists. exists (h, c). split; [apply in_indexed; assumption|]. rewrite HI. cbn [andb]. unfold had_keep. cbn [andb].
  apply existsb_exists. exists (k, e). split; [apply in_indexed; assumption|]. unfold is_em. rewrite HC. cbn [negb andb].
  apply opt_is_Some, best_spec. assumption.
Qed.
Lemma ev_no_conflict : ~ KeepConflict ev_em ev_had ev_tk ev_mu.
Proof. apply no_conflict. vm_compute. reflexivity. Qed.

Definition ev_out : pfout :=
  mkOut [mkCh 200 50 52 PID_Charged 7; mkCh 300 100 1 PID_Electron (-3); mkCh 150 (-100) (-100) PID_Muon 0; mkCh 0 0 0 PID_Electron 0]
        [mkNe 100 100 0 PID_Photon 5; mkNe 0 0 0 0 5]
        [mkNe 100 50 50 PID_Neutral 7; mkNe 0 0 0 0 7]
        [mkCh 150 (-100) (-100) PID_Muon 0; mkCh 0 0 0 0 0].
Lemma ev_run : pfalgo3_full mem0 2 ev_em ev_had ev_tk ev_mu = Ok ev_out.
Proof. vm_compute. reflexivity. Qed.

(** keep flag: an EM-like hadronic cluster linked both to a photon and to an EM
    cluster that is classified not electromagnetic *)
Definition kw_em := [mkEm 100 5 0 0; mkEm 20 1 30 0].
Definition kw_had := [mkHad 200 10 0 100 true].
Definition kw_tk := [mkTk 60 5 30 0 0 true].
(** hwPtErr = 1: the scale 193536 of the reference does not fit the firmware's 18 bits *)
Definition e1_had := [mkHad 99 0 0 0 false; mkHad 100 24 5 0 false].
Definition e1_tk := [mkTk 100 1 0 0 0 true].
(** a track linked to an EM cluster at (12,0), but closer to the origin *)
Definition es_em := [mkEm 150 10 12 0].
Definition es_tk := [mkTk 100 5 5 0 0 true].
(** two linked tracks whose pt sum does not fit 16 bits *)
Definition ov_em := [mkEm 100 5 0 0].
Definition ov_tk := [mkTk 20000 5 0 0 0 true; mkTk 20000 5 1 0 0 true].

(** an event whose total track pt exceeds 16 bits although the sum of each cluster fits *)
Definition lg_em := [mkEm 20000 200 100 0; mkEm 25000 300 (-200) 7].
Definition lg_had := [mkHad 21000 101 1 20000 true; mkHad 25500 (-199) 7 24000 true; mkHad 30000 0 200 0 false].
Definition lg_tk := [mkTk 19900 150 100 1 3 true; mkTk 24000 200 (-200) 8 (-5) true; mkTk 12000 100 0 201 0 false].
Lemma lg_phys : phys lg_em lg_had lg_tk [].
Proof. concrete. Qed.
Lemma lg_not_no_overflow : ~ no_overflow lg_em lg_tk.
Proof. intros [H _]. vm_compute in H. lia. Qed.
Lemma lg_fit : sums_fit lg_em lg_had lg_tk [] (Some 131071) false.
Proof.
  split.
  - intros [|[|[|k]]] e H; cbn in H; try discriminate; injection H as <-; (split; [vm_compute; congruence|]); intros _; cbn; lia.
  - intros [|[|[|[|k]]]] c H; cbn in H; try discriminate; injection H as <-; repeat split; vm_compute; congruence.
Qed.
