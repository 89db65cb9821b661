(** C16-C19, C53: the MP7 word encoding and the wrapped algorithm.
    [nch] is the number of channels (MP7_NCHANN); all array sizes are free. *)
From Verif Require Import Base Data PFHw Encoding SpecEnc EncFacts EncProofs Witness.

Theorem C16_input_roundtrip : forall nch em had tk mu data, (2 * (length em + length had + length tk + length mu) <= length data)%nat ->
  (2 * (length em + length had + length tk + length mu) <= nch)%nat ->
  Forall em_ok em -> Forall had_ok had -> Forall tk_ok tk -> Forall mu_ok mu ->
  exists w, mp7wrapped_pack_in nch em had tk mu data = Ok w /\
            mp7wrapped_unpack_in nch (length em) (length had) (length tk) (length mu) w = Ok (em, had, tk, mu).
Proof. exact c16. Qed.
Print Assumptions C16_input_roundtrip.
Example C16_hyp : Forall em_ok [mkEm (-32768) 32767 (-512) 511] /\ Forall had_ok [mkHad 1 2 (-3) (-4) true] /\
  Forall tk_ok [mkTk (-1) (-1) (-1) (-1) (-512) true] /\ Forall mu_ok [mkMu 7 6 5 (-5)] /\
  exists w, mp7wrapped_pack_in 144 [mkEm (-32768) 32767 (-512) 511] [mkHad 1 2 (-3) (-4) true] [mkTk (-1) (-1) (-1) (-1) (-512) true]
     [mkMu 7 6 5 (-5)] (repeat 4294967295 144) = Ok w /\ nth_error w 5 = Some 1611661311.
Proof. repeat split; try (repeat constructor; cbn; lia). eexists. split; vm_compute; reflexivity. Qed.

Theorem C17_output_roundtrip : forall nch ch pho ne mu data oldpho oldne, (2 * (length ch + length pho + length ne + length mu) <= length data)%nat ->
  (2 * (length ch + length pho + length ne + length mu) <= nch)%nat ->
  Forall ch_ok ch -> Forall ne_ok pho -> Forall ne_ok ne -> Forall ch_ok mu ->
  length oldpho = length pho -> length oldne = length ne ->
  exists w, mp7wrapped_pack_out nch ch pho ne mu data = Ok w /\
            mp7wrapped_unpack_out nch (length ch) (length mu) w oldpho oldne = Ok (ch, zip_puppi oldpho pho, zip_puppi oldne ne, mu).
Proof. exact c17. Qed.
Print Assumptions C17_output_roundtrip.
Example C17_hyp : Forall ch_ok (o_ch ev_out) /\ Forall ne_ok (o_pho ev_out) /\ Forall ne_ok (o_ne ev_out) /\ Forall ch_ok (o_mu ev_out) /\
  (2 * (length (o_ch ev_out) + length (o_pho ev_out) + length (o_ne ev_out) + length (o_mu ev_out)) <= MP7_NCHANN)%nat.
Proof. repeat split; try (repeat constructor; cbn; unfold PID_Electron, PID_Muon, PID_Charged, PID_Neutral, PID_Photon; lia). Qed.

(** the wrapped algorithm computes pfalgo3_full: same objects (hwPtPuppi is not
    carried by the words), and undefined exactly when it is, in the same way *)
Theorem C18_wrapper_computes_pfalgo : forall nch nsel mem em had tk mu data out0 oldpho oldne,
  (2 * (length em + length had + length tk + length mu) <= Nat.min nch (length data))%nat ->
  (2 * (length tk + length em + nsel + length mu) <= Nat.min nch (length out0))%nat ->
  Forall em_ok em -> Forall had_ok had -> Forall tk_ok tk -> Forall mu_ok mu ->
  (forall i, ne_ok (junk_tmp mem i)) -> length oldpho = length em -> length oldne = nsel ->
  exists w, mp7wrapped_pack_in nch em had tk mu data = Ok w /\
  match pfalgo3_full mem nsel em had tk mu with
  | Ok o => exists d, mp7wrapped_pfalgo3_full nch (length em) (length had) (length tk) (length mu) nsel mem w out0 = Ok d /\
              mp7wrapped_unpack_out nch (length tk) (length mu) d oldpho oldne
              = Ok (o_ch o, zip_puppi oldpho (o_pho o), zip_puppi oldne (o_ne o), o_mu o)
  | UB k => mp7wrapped_pfalgo3_full nch (length em) (length had) (length tk) (length mu) nsel mem w out0 = UB k
  end.
Proof. exact c18. Qed.
Print Assumptions C18_wrapper_computes_pfalgo.
Example C18_hyp : Forall em_ok ev_em /\ Forall had_ok ev_had /\ Forall tk_ok ev_tk /\ Forall mu_ok ev_mu /\ ne_ok (junk_tmp mem0 0) /\
  pfalgo3_full mem0 2 ev_em ev_had ev_tk ev_mu = Ok ev_out.
Proof. repeat split; try (repeat constructor; cbn; lia). Qed.

(** exact layout of the written words; everything after them is untouched *)
Theorem C19_pack_in_layout : forall nch em had tk mu data, (2 * (length em + length had + length tk + length mu) <= length data)%nat ->
  (2 * (length em + length had + length tk + length mu) <= nch)%nat ->
  mp7wrapped_pack_in nch em had tk mu data =
  Ok (flat_map em_words em ++ flat_map had_words had ++ flat_map tk_words tk ++ flat_map mu_words mu
      ++ skipn (2 * (length em + length had + length tk + length mu)) data).
Proof. exact pack_in_layout. Qed.
Print Assumptions C19_pack_in_layout.
Theorem C19_pack_out_layout : forall nch ch pho ne mu data, (2 * (length ch + length pho + length ne + length mu) <= length data)%nat ->
  (2 * (length ch + length pho + length ne + length mu) <= nch)%nat ->
  mp7wrapped_pack_out nch ch pho ne mu data =
  Ok (flat_map ch_words ch ++ flat_map ne_words pho ++ flat_map ne_words ne ++ flat_map ch_words mu
      ++ skipn (2 * (length ch + length pho + length ne + length mu)) data).
Proof. exact pack_out_layout. Qed.
Print Assumptions C19_pack_out_layout.
Example C19_hyp : mp7wrapped_pack_out 10 [mkCh 1 2 3 4 5] [mkNe (-1) 1 1 2 0] [] [mkCh 9 0 0 4 0] (map Z.of_nat (seq 100 10)) =
  Ok [262145; 5245954; 196607; 1025; 262153; 0; 106; 107; 108; 109].
Proof. vm_compute. reflexivity. Qed.

(** it fits: all configurations of data.h, on both boards *)
Theorem C19_configurations_fit :
  Forall (fun c => (2 * (NEMCALO c + NCALO c + NTRACK c + NMU c) <= MP7_NCHANN)%nat /\
                   (2 * (NTRACK c + NEMCALO c + NSELCALO c + NMU c) <= MP7_NCHANN)%nat) [cfg_TESTMP7; cfg_TESTCTP7; cfg_default] /\
  (2 * (NEMCALO cfg_TESTCTP7 + NCALO cfg_TESTCTP7 + NTRACK cfg_TESTCTP7 + NMU cfg_TESTCTP7) <= CTP7_NCHANN_IN)%nat /\
  (2 * (NTRACK cfg_TESTCTP7 + NEMCALO cfg_TESTCTP7 + NSELCALO cfg_TESTCTP7 + NMU cfg_TESTCTP7) <= CTP7_NCHANN_OUT)%nat.
Proof. exact configs_fit. Qed.
Print Assumptions C19_configurations_fit.

(** it asserts when it does not fit *)
Theorem C19_pack_in_asserts : forall nch em had tk mu data,
  (nch < 2 * (length em + length had + length tk + length mu))%nat -> mp7wrapped_pack_in nch em had tk mu data = UB AssertFail.
Proof. exact misfit_in. Qed.
Print Assumptions C19_pack_in_asserts.
Theorem C19_pack_out_asserts : forall nch ch pho ne mu data,
  (nch < 2 * (length ch + length pho + length ne + length mu))%nat -> mp7wrapped_pack_out nch ch pho ne mu data = UB AssertFail.
Proof. exact misfit_out. Qed.
Print Assumptions C19_pack_out_asserts.

(** ** C53: decoding arbitrary words *)
Theorem C53_decode_total_in_range : forall nch nem nhad ntk nmu data, length data = nch -> (2 * (nem + nhad + ntk + nmu) <= nch)%nat ->
  exists em had tk mu, mp7wrapped_unpack_in nch nem nhad ntk nmu data = Ok (em, had, tk, mu) /\
    length em = nem /\ length had = nhad /\ length tk = ntk /\ length mu = nmu /\
    Forall em_ok em /\ Forall had_ok had /\ Forall tk_ok tk /\ Forall mu_ok mu.
Proof. exact unpack_in_total. Qed.
Print Assumptions C53_decode_total_in_range.
Example C53_ex : mp7wrapped_unpack_in 8 1 1 1 1 [4294967295; 2147483648; 1; 1048576; 2; 3758096384; 3; 4] =
  Ok ([mkEm (-1) (-1) 0 0], [mkHad 1 0 0 0 true], [mkTk 2 0 0 0 (-512) true], [mkMu 3 0 4 0]).
Proof. vm_compute. reflexivity. Qed.

(** ** C52, for every input in range (no restriction on sums or signs):
    the outputs are in the range of their types *)
Theorem C52_outputs_in_type_range_any_input : forall mem nsel em had track mu out,
  Forall em_ok em -> Forall had_ok had -> Forall tk_ok track -> (forall i, ne_ok (junk_tmp mem i)) ->
  pfalgo3_full mem nsel em had track mu = Ok out ->
  Forall ch_ok (o_ch out) /\ Forall ne_ok (o_pho out) /\ Forall ne_ok (o_ne out) /\ Forall ch_ok (o_mu out).
Proof. exact pf_ranges. Qed.
Print Assumptions C52_outputs_in_type_range_any_input.
