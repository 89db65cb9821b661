(** C20-C25: PUPPI.  [tab] is the 8-bit weight table, [z] the vertex position. *)
From Coq Require Import Permutation.
From Verif Require Import Base Data SpecPF Puppi SpecPuppi PuppiProofs PuppiExact.

(** a concrete input: two tracks near the vertex, one far away in z, three
    neutrals (near, in between, far), and a table growing with the index *)
Definition px_tab : list Z := map (fun i => Z.of_nat i / 5) (seq 0 (Z.to_nat 1174)).
Definition px_ch : list PFCh := [mkCh 120 10 10 0 5; mkCh 60 (-20) 15 0 (-100); mkCh 500 10 10 0 400].
Definition px_ne : list PFNe := [mkNe 80 12 9 2 7; mkNe 200 60 10 1 7; mkNe 50 (-300) 100 1 7; mkNe 0 0 0 0 0].
Example px_hyp : table_ok px_tab /\ Forall (fun c => inS 16 (c_pt c)) px_ch /\ Forall (fun n => inS 16 (n_pt n)) px_ne /\
  (forall n, In n px_ne -> alpha_sum 0 px_ch n < 2147483648) /\ (forall n, In n px_ne -> n_pt n = 0 -> n_puppi n = 0) /\
  simple_puppi_hw px_tab px_ch px_ne 0 = Ok [mkNe 80 12 9 2 80; mkNe 200 60 10 1 31; mkNe 50 (-300) 100 1 0; mkNe 0 0 0 0 0].
Proof.
  split; [split; [vm_compute; reflexivity|]|].
  { apply Forall_forall. intros w Hw. apply in_map_iff in Hw as (i & <- & Hi). apply in_seq in Hi. split; [apply Z.div_pos; lia|]. apply Z.div_le_upper_bound; lia. }
  split; [repeat constructor; cbn; lia|]. split; [repeat constructor; cbn; lia|].
  split; [|split; [|vm_compute; reflexivity]]; intros n Hn; cbn in Hn; repeat (destruct Hn as [<-|Hn]); try destruct Hn; vm_compute; congruence.
Qed.

Theorem C20_hw_eq_ref : forall tab pfch pfne z, table_ok tab ->
  Forall (fun c => inS 16 (c_pt c)) pfch -> Forall (fun n => inS 16 (n_pt n)) pfne ->
  (forall n, In n pfne -> alpha_sum z pfch n < 2147483648) ->
  (forall n, In n pfne -> n_pt n = 0 -> n_puppi n = 0) ->
  exists r, simple_puppi_hw tab pfch pfne z = Ok r /\ simple_puppi_ref tab pfch pfne z = Ok r.
Proof. exact hw_eq_ref. Qed.
Print Assumptions C20_hw_eq_ref.

(** what both compute *)
Theorem C20_hw_value : forall tab pfch pfne z, table_ok tab -> Forall (fun n => inS 16 (n_pt n)) pfne ->
  (forall n, In n pfne -> alpha_sum z pfch n < 2147483648) ->
  simple_puppi_hw tab pfch pfne z = Ok (map (fun n => set_puppi n (puppi_pt tab (n_pt n) (alpha_sum z pfch n))) pfne).
Proof. exact hw_spec. Qed.
Print Assumptions C20_hw_value.

(** holds for every defined run, overflowing e^alpha sums included *)
Theorem C21_only_scales_down : forall tab pfch pfne z r, table_ok tab -> Forall (fun n => inS 16 (n_pt n)) pfne ->
  simple_puppi_hw tab pfch pfne z = Ok r ->
  length r = length pfne /\
  forall i n, nth_error pfne i = Some n -> exists m, nth_error r i = Some m /\
    n_pt m = n_pt n /\ n_eta m = n_eta n /\ n_phi m = n_phi n /\ n_id m = n_id n /\ (0 <= n_pt n -> 0 <= n_puppi m <= n_pt n).
Proof. exact c21. Qed.
Print Assumptions C21_only_scales_down.

Theorem C22_nothing_without_vertex_track : forall tab pfch pfne z r i n, table_ok tab -> Forall (fun n => inS 16 (n_pt n)) pfne ->
  simple_puppi_hw tab pfch pfne z = Ok r -> nth_error pfne i = Some n ->
  (forall c, In c pfch -> Z.abs (z - c_z0 c) <= 256 -> 8404 < dist2 (c_eta c) (c_phi c) (n_eta n) (n_phi n)) ->
  nth_error r i = Some (set_puppi n 0).
Proof. exact c22_none. Qed.
Print Assumptions C22_nothing_without_vertex_track.
Example C22_none_hyp : forall c, In c px_ch -> Z.abs (0 - c_z0 c) <= 256 -> 8404 < dist2 (c_eta c) (c_phi c) (-300) 100.
Proof. intros c Hc. cbn in Hc. repeat (destruct Hc as [<-|Hc]); try destruct Hc; vm_compute; congruence. Qed.

Theorem C22_everything_with_strong_activity : forall tab pfch pfne z r i n, table_ok tab -> Forall (fun n => inS 16 (n_pt n)) pfne ->
  simple_puppi_hw tab pfch pfne z = Ok r -> nth_error pfne i = Some n ->
  1174 * 1024 <= alpha_sum z pfch n < 2147483648 -> nth_error r i = Some (set_puppi n (n_pt n)).
Proof. exact c22_all. Qed.
Print Assumptions C22_everything_with_strong_activity.
Example C22_all_hyp : 1174 * 1024 <= alpha_sum 0 px_ch (mkNe 80 12 9 2 7) < 2147483648.
Proof. vm_compute. split; congruence. Qed.

(** [pfch'] is [pfch] with more objects, in any order *)
Theorem C23_monotone : forall tab pfch extra pfch' pfne z, table_ok tab -> table_monotone tab ->
  Forall (fun n => inS 16 (n_pt n) /\ 0 <= n_pt n) pfne -> Permutation pfch' (pfch ++ extra) ->
  (forall n, In n pfne -> alpha_sum z pfch' n < 2147483648) ->
  exists r r', simple_puppi_hw tab pfch pfne z = Ok r /\ simple_puppi_hw tab pfch' pfne z = Ok r' /\
    Forall2 (fun a b => n_puppi a <= n_puppi b) r r'.
Proof. exact c23. Qed.
Print Assumptions C23_monotone.
Example C23_hyp : table_monotone px_tab /\ Permutation px_ch ([mkCh 120 10 10 0 5] ++ [mkCh 60 (-20) 15 0 (-100); mkCh 500 10 10 0 400]).
Proof.
  assert (E : forall k, (k < Z.to_nat 1174)%nat -> nth k px_tab 0 = Z.of_nat k / 5).
  { intros k Hk. etransitivity; [exact (map_nth (fun i => Z.of_nat i / 5) (seq 0 (Z.to_nat 1174)) 0%nat k)|].
    cbv beta. rewrite seq_nth by exact Hk. reflexivity. }
  split; [|apply Permutation_refl]. intros i j Hij Hj.
  assert (length px_tab = Z.to_nat 1174) as L by (unfold px_tab; rewrite map_length; apply seq_length).
  rewrite L in Hj. rewrite !E by (unfold px_tab; lia). apply Z.div_le_mono; lia.
Qed.

(** Full statement of C24: for every in-range input both are defined and agree.
    False: the sum overflows int, the reference's product overflows int, and
    the firmware's product wraps, so that adding a soft track to a hard one
    removes a neutral. *)
Theorem C24_sum_overflow_refuted : exists tab pfch pfne z, table_ok tab /\ Forall ch_ok pfch /\ Forall ne_ok pfne /\
  simple_puppi_hw tab pfch pfne z = UB SignedOverflow /\ simple_puppi_ref tab pfch pfne z = UB SignedOverflow.
Proof. exact c24_hw_overflow. Qed.
Print Assumptions C24_sum_overflow_refuted.
Theorem C24_product_overflow_refuted : exists tab pfch pfne z r, table_ok tab /\ Forall ch_ok pfch /\ Forall ne_ok pfne /\ length pfch = 1%nat /\
  simple_puppi_hw tab pfch pfne z = Ok r /\ simple_puppi_ref tab pfch pfne z = UB SignedOverflow.
Proof. exact c24_one_track. Qed.
Print Assumptions C24_product_overflow_refuted.
Theorem C24_wraparound_suppresses_neutral_refuted : exists tab pfch c pfne z r, table_ok tab /\ Forall ch_ok (pfch ++ [c]) /\ Forall ne_ok pfne /\
  simple_puppi_hw tab pfch pfne z = Ok [set_puppi neu 100] /\ pfne = [neu] /\
  simple_puppi_hw tab (pfch ++ [c]) pfne z = Ok r /\ r = [set_puppi neu 0].
Proof. exact c24_suppressed. Qed.
Print Assumptions C24_wraparound_suppresses_neutral_refuted.
(** true when n tracks of pt at most P satisfy n*P^2 < 2^21 (e.g. 15 tracks of pt <= 373) *)
Theorem C24_no_overflow_partial : forall tab pfch pfne z P, table_ok tab -> 0 <= P ->
  Forall (fun c => inS 16 (c_pt c) /\ Z.abs (c_pt c) <= P) pfch ->
  Forall (fun n => inS 16 (n_pt n)) pfne -> (forall n, In n pfne -> n_pt n = 0 -> n_puppi n = 0) ->
  Z.of_nat (length pfch) * (P * P) < 2097152 ->
  exists r, simple_puppi_hw tab pfch pfne z = Ok r /\ simple_puppi_ref tab pfch pfne z = Ok r.
Proof. exact c24. Qed.
Print Assumptions C24_no_overflow_partial.
Example C24_partial_hyp : Forall (fun c => inS 16 (c_pt c) /\ Z.abs (c_pt c) <= 500) px_ch /\ Z.of_nat (length px_ch) * (500 * 500) < 2097152.
Proof. split; [repeat constructor; cbn; lia|cbn; lia]. Qed.

(** Exactly when the firmware is defined, and what it then gives: every partial
    sum of the terms, each cut to 32 bits, fits an int; a negative sum lets the
    neutral through. *)
Theorem C24_firmware_defined : forall tab pfch pfne z, table_ok tab -> Forall (fun n => inS 16 (n_pt n)) pfne ->
  ((forall n k, In n pfne -> is_int (int_alpha_sum z (firstn k pfch) n)) ->
    simple_puppi_hw tab pfch pfne z = Ok (map (fun n => set_puppi n (int_puppi_pt tab (n_pt n) (int_alpha_sum z pfch n))) pfne)) /\
  (~ (forall n k, In n pfne -> is_int (int_alpha_sum z (firstn k pfch) n)) -> simple_puppi_hw tab pfch pfne z = UB SignedOverflow).
Proof. exact hw_exact. Qed.
Print Assumptions C24_firmware_defined.
(** Exactly when the reference is: the activity of every non-empty neutral fits an int. *)
Theorem C24_reference_defined : forall tab pfch pfne z, table_ok tab -> Forall (fun c => inS 16 (c_pt c)) pfch -> Forall (fun n => inS 16 (n_pt n)) pfne ->
  ((forall n, In n pfne -> n_pt n <> 0 -> is_int (alpha_sum z pfch n)) ->
    simple_puppi_ref tab pfch pfne z = Ok (map (fun n => if n_pt n =? 0 then n else set_puppi n (puppi_pt tab (n_pt n) (alpha_sum z pfch n))) pfne)) /\
  (~ (forall n, In n pfne -> n_pt n <> 0 -> is_int (alpha_sum z pfch n)) -> simple_puppi_ref tab pfch pfne z = UB SignedOverflow).
Proof. exact ref_exact. Qed.
Print Assumptions C24_reference_defined.
(** Whenever both are defined they agree. *)
Theorem C24_agree_when_defined : forall tab pfch pfne z r r', table_ok tab -> Forall (fun c => inS 16 (c_pt c)) pfch -> Forall (fun n => inS 16 (n_pt n)) pfne ->
  (forall n, In n pfne -> n_pt n = 0 -> n_puppi n = 0) ->
  simple_puppi_hw tab pfch pfne z = Ok r -> simple_puppi_ref tab pfch pfne z = Ok r' -> r = r'.
Proof. exact agree_when_defined. Qed.
Print Assumptions C24_agree_when_defined.
(** a track of 1500 units: defined in the firmware only; two of 1131: in neither *)
Example C24_defined_hyp : (forall n k, In n [neu] -> is_int (int_alpha_sum 0 (firstn k [trk 1500]) n)) /\ ~ (forall n, In n [neu] -> n_pt n <> 0 -> is_int (alpha_sum 0 [trk 1500] n)) /\
  ~ (forall n k, In n [neu] -> is_int (int_alpha_sum 0 (firstn k [trk 1131; trk 1131]) n)).
Proof. exact wraps_example. Qed.
Example C24_agree_hyp : exists r, simple_puppi_hw px_tab px_ch px_ne 0 = Ok r /\ simple_puppi_ref px_tab px_ch px_ne 0 = Ok r /\ (forall n, In n px_ne -> n_pt n = 0 -> n_puppi n = 0).
Proof. eexists. split; [vm_compute; reflexivity|]. split; [vm_compute; reflexivity|]. exact (proj1 (proj2 (proj2 (proj2 (proj2 px_hyp))))). Qed.

(** Full statement of C25 (all 17-bit num) is false: the int result wraps *)
Theorem C25_lut_divide_accuracy_partial : forall num den, 0 <= num < 131072 -> 0 < den < 512 -> num * (32768 / den) < 2147483648 ->
  let q := lut_shift15_divide num den in
  q * den <= num * 32768 /\ num * 32768 - num * den <= q * den /\ (num <> 0 -> num * 32768 - num * den < q * den) /\
  ((exists k, 0 <= k <= 8 /\ den = 2 ^ k) -> q * den = num * 32768).
Proof. exact c25. Qed.
Print Assumptions C25_lut_divide_accuracy_partial.
Example C25_hyp : lut_shift15_divide 1000 3 = 10922000 /\ 1000 * (32768 / 3) < 2147483648.
Proof. split; vm_compute; reflexivity. Qed.
(** the quotient for every argument, cut to 32 bits *)
Theorem C25_lut_divide_value : forall num den, 0 <= num < 131072 -> 0 <= den < 512 -> lut_shift15_divide num den = to_int (num * (32768 / Z.max 1 den)).
Proof. exact divide_int. Qed.
Print Assumptions C25_lut_divide_value.
Theorem C25_lut_divide_by_zero : forall num, lut_shift15_divide num 0 = lut_shift15_divide num 1.
Proof. exact c25_zero. Qed.
Print Assumptions C25_lut_divide_by_zero.
Theorem C25_lut_divide_wraps_refuted : exists num den, 0 <= num < 131072 /\ 0 < den < 512 /\ lut_shift15_divide num den < 0.
Proof. exact c25_overflow. Qed.
Print Assumptions C25_lut_divide_wraps_refuted.
