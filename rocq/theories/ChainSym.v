(** C100: symmetries of the chain. *)
From Verif Require Import Base BaseFacts Data PFHw PFRef SpecPF SpecPFRef SpecPFWrap SpecSym SymProofs
  Regionizer SpecRegion SpecRegMove RegMoveProofs RegTest SpecChain SpecChainSym ChainProofs.

Lemma fib_ok {S T} nobj nf cnt (f : S -> robj T) l : (nobj / nf = cnt)%nat -> fibres (nf * 12) cnt l -> fibres_ok nobj nf (map (map f) l).
Proof. intros <- C. destruct (fib_len _ _ f _ C) as [L1 L2]. split; assumption. Qed.

Lemma had_gives c e had : complete c e -> had_reference c e had -> exists out, gives had_d 15 7 (NCALO c) 1 (map (map r_of_had) (ev_had e)) out /\ had = map (map had_of_r) out.
Proof.
  intros (C & _) (w & g & o & rest & st & W & G & E & ->). destruct (gives_exists had_d 15 7 (NCALO c) 1 _ (fib_ok 15 1 15 r_of_had _ eq_refl C)) as (out & GO).
  exists out. split; [exact GO|]. destruct (proj1 GO w g W G) as (r' & s' & E'). unfold regionize_hadcalo_ref in E. change NCALO_PER_SECTOR with 15%nat in E. change NCALO_PER_SECTOR_PER_ETA with 7%nat in E. rewrite E in E'. congruence.
Qed.
Lemma em_gives c e em : complete c e -> em_reference c e em -> exists out, gives 0 12 7 (NEMCALO c) 1 (map (map r_of_em) (ev_em e)) out /\ em = map (map em_of_r) out.
Proof.
  intros (_ & C & _) (w & g & o & rest & st & W & G & E & ->). destruct (gives_exists 0 12 7 (NEMCALO c) 1 _ (fib_ok 12 1 12 r_of_em _ eq_refl C)) as (out & GO).
  exists out. split; [exact GO|]. destruct (proj1 GO w g W G) as (r' & s' & E'). unfold regionize_emcalo_ref in E. change NEMCALO_PER_SECTOR with 12%nat in E. change NEMCALO_PER_SECTOR_PER_ETA with 7%nat in E. rewrite E in E'. congruence.
Qed.
Lemma tk_gives c e tk : complete c e -> tk_reference c e tk -> exists out, gives tk_d 20 9 (NTRACK c) 2 (map (map r_of_tk) (ev_tk e)) out /\ tk = map (map tk_of_r) out.
Proof.
  intros (_ & _ & C & _) (w & g & o & rest & st & W & G & E & ->). destruct (gives_exists tk_d 20 9 (NTRACK c) 2 _ (fib_ok 20 2 10 r_of_tk _ eq_refl C)) as (out & GO).
  exists out. split; [exact GO|]. destruct (proj1 GO w g W G) as (r' & s' & E'). unfold regionize_track_ref in E. change NTRACK_PER_SECTOR with 20%nat in E. change NTRACK_PER_SECTOR_PER_ETA with 9%nat in E. rewrite E in E'. congruence.
Qed.
Lemma mu_fib {S T} c (f : S -> robj T) l : fibres 4 (NMU c) l -> SpecRegMove.mu_ok (NMU c) (map (map f) l).
Proof. intros C. destruct (fib_len _ _ f _ C) as [L1 L2]. split; assumption. Qed.
Lemma mu_gives c e mu : complete c e -> mu_reference c e mu -> exists out, gives_muons 0 (NMU c) (map (map r_of_mu) (ev_mu e)) out /\ mu = map (map mu_of_r) out.
Proof.
  intros (_ & _ & _ & C) (w & g & o & rest & st & W & G & E & ->). destruct (muons_exist 0 (NMU c) _ (mu_fib c r_of_mu _ C)) as (out & GO).
  exists out. split; [exact GO|]. destruct (GO w g W G) as (r' & s' & E'). rewrite E in E'. congruence.
Qed.

(** ** mirror *)
Lemma mirror_complete c e : complete c e -> complete c (mirror_event e).
Proof.
  assert (G : forall T n k (f : T -> T) l, fibres n k l -> fibres n k (map (map f) l)).
  { intros T n k f l [L K]. split; [rewrite map_length; exact L|]. intros b Hb. apply in_map_iff in Hb as (a & <- & Ha). rewrite map_length. exact (K a Ha). }
  intros (C1 & C2 & C3 & C4). split; [apply G; exact C1|]. split; [apply G; exact C2|]. split; apply G; assumption.
Qed.
Lemma mm {A B B' C} (f : B -> C) (g : A -> B) (f' : B' -> C) (g' : A -> B') l : (forall x, f (g x) = f' (g' x)) -> map (map f) (map (map g) l) = map (map f') (map (map g') l).
Proof. intros H. rewrite !map_map. apply map_ext. intros a. rewrite !map_map. apply map_ext. exact H. Qed.
Lemma flip_id eta phi : inS 10 eta -> inS 10 (- eta) -> inS 10 phi -> mirror true false eta phi = (- eta, phi).
Proof. intros A B C. unfold mirror. rewrite !wrapS_id by (unfold inS in *; lia). reflexivity. Qed.

Lemma mir_had c e had had' ie ip : complete c e -> had_reference c e had -> had_reference c (mirror_event e) had' -> (ie < 3)%nat -> (ip < 6)%nat ->
  nth (6 * ie + ip) had' [] = map (fun h => mkHad (h_pt h) (- h_eta h) (h_phi h) (h_empt h) (h_isem h)) (nth (6 * (2 - ie) + ip) had []).
Proof.
  intros C H H' He Hp. pose proof (mirror_complete c e C) as C'. destruct (had_gives c e had C H) as (o & G & ->). destruct (had_gives c _ had' C' H') as (o' & G' & ->).
  assert (X : map (map r_of_had) (ev_had (mirror_event e)) = map (map mirrored) (map (map r_of_had) (ev_had e))) by (apply mm; reflexivity).
  assert (O : fibres_ok 15 1 (map (map r_of_had) (ev_had e))) by (apply (fib_ok 15 1 15); [reflexivity|apply C]).
  assert (O' : fibres_ok 15 1 (map (map r_of_had) (ev_had (mirror_event e)))) by (apply (fib_ok 15 1 15); [reflexivity|apply C']).
  rewrite X in G', O'. pose proof (c91_mirror had_d _ _ _ _ _ _ _ O O' G G' ie ip He Hp) as M. unfold region in M. rewrite !nth_mm, M, !map_map. apply map_ext. reflexivity.
Qed.
Lemma mir_em c e em em' ie ip : complete c e -> em_reference c e em -> em_reference c (mirror_event e) em' -> (ie < 3)%nat -> (ip < 6)%nat ->
  nth (6 * ie + ip) em' [] = map (fun x => mkEm (e_pt x) (e_pterr x) (- e_eta x) (e_phi x)) (nth (6 * (2 - ie) + ip) em []).
Proof.
  intros C H H' He Hp. pose proof (mirror_complete c e C) as C'. destruct (em_gives c e em C H) as (o & G & ->). destruct (em_gives c _ em' C' H') as (o' & G' & ->).
  assert (X : map (map r_of_em) (ev_em (mirror_event e)) = map (map mirrored) (map (map r_of_em) (ev_em e))) by (apply mm; reflexivity).
  assert (O : fibres_ok 12 1 (map (map r_of_em) (ev_em e))) by (apply (fib_ok 12 1 12); [reflexivity|apply C]).
  assert (O' : fibres_ok 12 1 (map (map r_of_em) (ev_em (mirror_event e)))) by (apply (fib_ok 12 1 12); [reflexivity|apply C']).
  rewrite X in G', O'. pose proof (c91_mirror 0 _ _ _ _ _ _ _ O O' G G' ie ip He Hp) as M. unfold region in M. rewrite !nth_mm, M, !map_map. apply map_ext. reflexivity.
Qed.
Lemma mir_tk c e tk tk' ie ip : complete c e -> tk_reference c e tk -> tk_reference c (mirror_event e) tk' -> (ie < 3)%nat -> (ip < 6)%nat ->
  nth (6 * ie + ip) tk' [] = map (fun t => mkTk (t_pt t) (t_pterr t) (- t_eta t) (t_phi t) (t_z0 t) (t_tight t)) (nth (6 * (2 - ie) + ip) tk []).
Proof.
  intros C H H' He Hp. pose proof (mirror_complete c e C) as C'. destruct (tk_gives c e tk C H) as (o & G & ->). destruct (tk_gives c _ tk' C' H') as (o' & G' & ->).
  assert (X : map (map r_of_tk) (ev_tk (mirror_event e)) = map (map mirrored) (map (map r_of_tk) (ev_tk e))) by (apply mm; reflexivity).
  assert (O : fibres_ok 20 2 (map (map r_of_tk) (ev_tk e))) by (apply (fib_ok 20 2 10); [reflexivity|apply C]).
  assert (O' : fibres_ok 20 2 (map (map r_of_tk) (ev_tk (mirror_event e)))) by (apply (fib_ok 20 2 10); [reflexivity|apply C']).
  rewrite X in G', O'. pose proof (c91_mirror tk_d _ _ _ _ _ _ _ O O' G G' ie ip He Hp) as M. unfold region in M. rewrite !nth_mm, M, !map_map. apply map_ext. reflexivity.
Qed.
Lemma mir_mu c e mu mu' ie ip : complete c e -> mu_reference c e mu -> mu_reference c (mirror_event e) mu' -> (ie < 3)%nat -> (ip < 6)%nat ->
  nth (6 * ie + ip) mu' [] = map (fun m => mkMu (m_pt m) (m_pterr m) (- m_eta m) (m_phi m)) (nth (6 * (2 - ie) + ip) mu []).
Proof.
  intros C H H' He Hp. pose proof (mirror_complete c e C) as C'. destruct (mu_gives c e mu C H) as (o & G & ->). destruct (mu_gives c _ mu' C' H') as (o' & G' & ->).
  assert (X : map (map r_of_mu) (ev_mu (mirror_event e)) = map (map mirrored) (map (map r_of_mu) (ev_mu e))) by (apply mm; reflexivity).
  assert (O : SpecRegMove.mu_ok (NMU c) (map (map r_of_mu) (ev_mu e))) by (apply mu_fib, C).
  assert (O' : SpecRegMove.mu_ok (NMU c) (map (map r_of_mu) (ev_mu (mirror_event e)))) by (apply mu_fib, C').
  rewrite X in G', O'. pose proof (c91_muon_mirror 0 _ _ _ _ O O' G G' ie ip He Hp) as M. unfold region in M. rewrite !nth_mm, M, !map_map. apply map_ext. reflexivity.
Qed.
Lemma map_on {A B} (f g : A -> B) (P : A -> Prop) (Q : B -> Prop) l : Forall P l -> Forall Q (map f l) -> (forall x, P x -> Q (f x) -> f x = g x) -> map f l = map g l.
Proof. intros HP HQ H. apply map_ext_in. intros x Hx. apply H; [rewrite Forall_forall in HP; exact (HP x Hx)|rewrite Forall_forall in HQ; apply HQ; apply in_map; exact Hx]. Qed.

Lemma c100_mirror c e had em tk mu had' em' tk' mu' ie ip mem mem' : (NSELCALO c <= NCALO c)%nat -> complete c e -> in_range e -> in_range (mirror_event e) ->
  had_reference c e had -> other_regions c e em tk mu -> had_reference c (mirror_event e) had' -> other_regions c (mirror_event e) em' tk' mu' -> (ie < 3)%nat -> (ip < 6)%nat ->
  let r := (6 * (2 - ie) + ip)%nat in let r' := (6 * ie + ip)%nat in
  let fw m em had tk mu r := pfalgo3_full m (NSELCALO c) (nth r em []) (nth r had []) (nth r tk []) (nth r mu []) in
  let rf m em had tk mu r := pfalgo3_full_ref m (NSELCALO c) (nth r em []) (nth r had []) (nth r tk []) (nth r mu []) in
  ((exists o o', fw mem em had tk mu r = Ok o /\ fw mem' em' had' tk' mu' r' = Ok o' /\ moved_out (mirror true false) o o') \/
   (fw mem em had tk mu r = UB SignedOverflow /\ fw mem' em' had' tk' mu' r' = UB SignedOverflow)) /\
  ((exists o o', rf mem em had tk mu r = Ok o /\ rf mem' em' had' tk' mu' r' = Ok o' /\ moved_out (mirror true false) o o') \/
   (rf mem em had tk mu r = UB SignedOverflow /\ rf mem' em' had' tk' mu' r' = UB SignedOverflow)).
Proof.
  intros N C R R' H O H' O' He Hp r r'. assert (Hr : (r < 18)%nat) by (unfold r; lia). assert (Hr' : (r' < 18)%nat) by (unfold r'; lia). pose proof (mirror_complete c e C) as C'.
  destruct (c98_legal c e had em tk mu r C R H O Hr) as (P & _ & L & _). destruct (c98_legal c _ had' em' tk' mu' r' C' R' H' O' Hr') as (P' & _).
  destruct O as (O1 & O2 & O3). destruct O' as (O1' & O2' & O3').
  pose proof (mir_had c e had had' ie ip C H H' He Hp) as Eh. pose proof (mir_em c e em em' ie ip C O1 O1' He Hp) as Ee. pose proof (mir_tk c e tk tk' ie ip C O2 O2' He Hp) as Et. pose proof (mir_mu c e mu mu' ie ip C O3 O3' He Hp) as Em.
  fold r r' in Eh, Ee, Et, Em. cbn zeta. destruct P as (Pe & Ph & Pt & Pm). destruct P' as (Pe' & Ph' & Pt' & Pm'). pose proof (conj Pe (conj Ph (conj Pt Pm))) as P.
  rewrite Ee in Pe'. rewrite Eh in Ph'. rewrite Et in Pt'. rewrite Em in Pm'. rewrite Ee, Eh, Et, Em. clear Ee Eh Et Em.
  rewrite (map_on _ (move_em (mirror true false)) _ _ _ Pe Pe') by (intros x X X'; unfold em_phys, em_ok in *; cbn [e_pt e_pterr e_eta e_phi] in *; unfold move_em; rewrite flip_id by tauto; reflexivity).
  rewrite (map_on _ (move_had (mirror true false)) _ _ _ Ph Ph') by (intros x X X'; unfold had_phys, had_ok in *; cbn [h_pt h_empt h_eta h_phi] in *; unfold move_had; rewrite flip_id by tauto; reflexivity).
  rewrite (map_on _ (move_tk (mirror true false)) _ _ _ Pt Pt') by (intros x X X'; unfold tk_phys, tk_ok in *; cbn [t_pt t_pterr t_eta t_phi t_z0] in *; unfold move_tk; rewrite flip_id by tauto; reflexivity).
  rewrite (map_on _ (move_mu (mirror true false)) _ _ _ Pm Pm') by (intros x X X'; unfold mu_phys, Data.mu_ok in *; cbn [m_pt m_pterr m_eta m_phi] in *; unfold move_mu; rewrite flip_id by tauto; reflexivity).
  split; [apply fw_moved|apply ref_moved]; try exact (mirror_isometry true false); try exact P; try lia; exact (moved_phys _ _ _ _ _ (mirror_bounded true false) P).
Qed.

(** ** rotation *)
Lemma turn_r {S T} (f : S -> robj T) n l l' : fibres_turned n l l' -> turned n (map (map f) l) (map (map f) l').
Proof. intros [L H]. split; [rewrite !map_length; exact L|]. rewrite map_length. intros i Hi. rewrite !nth_mm. rewrite (H i Hi). reflexivity. Qed.
Lemma c100_regions c e e' had em tk mu had' em' tk' mu' k ie ip : complete c e -> complete c e' -> turned_by k e e' ->
  had_reference c e had -> other_regions c e em tk mu -> had_reference c e' had' -> other_regions c e' em' tk' mu' -> (ie < 3)%nat -> (ip < 6)%nat ->
  let r := (6 * ie + (ip + k) mod 6)%nat in let r' := (6 * ie + ip)%nat in
  nth r' had' [] = nth r had [] /\ nth r' em' [] = nth r em [] /\ nth r' tk' [] = nth r tk [].
Proof.
  intros C C' (T1 & T2 & T3) H (O1 & O2 & _) H' (O1' & O2' & _) He Hp r r'.
  split; [|split].
  - destruct (had_gives c e had C H) as (o & G & ->). destruct (had_gives c e' had' C' H') as (o' & G' & ->). rewrite !nth_mm. f_equal.
    refine (c91_rotation had_d 15 7 _ 1 _ _ o o' k ltac:(lia) _ _ _ G G' ie ip He Hp); [apply (fib_ok 15 1 15); [reflexivity|apply C]|apply (fib_ok 15 1 15); [reflexivity|apply C']|]. apply turn_r. rewrite Nat.mul_1_l. exact T1.
  - destruct (em_gives c e em C O1) as (o & G & ->). destruct (em_gives c e' em' C' O1') as (o' & G' & ->). rewrite !nth_mm. f_equal.
    refine (c91_rotation 0 12 7 _ 1 _ _ o o' k ltac:(lia) _ _ _ G G' ie ip He Hp); [apply (fib_ok 12 1 12); [reflexivity|apply C]|apply (fib_ok 12 1 12); [reflexivity|apply C']|]. apply turn_r. rewrite Nat.mul_1_l. exact T2.
  - destruct (tk_gives c e tk C O2) as (o & G & ->). destruct (tk_gives c e' tk' C' O2') as (o' & G' & ->). rewrite !nth_mm. f_equal.
    refine (c91_rotation tk_d 20 9 _ 2 _ _ o o' k ltac:(lia) _ _ _ G G' ie ip He Hp); [apply (fib_ok 20 2 10); [reflexivity|apply C]|apply (fib_ok 20 2 10); [reflexivity|apply C']|]. apply turn_r. replace (2 * (2 * k))%nat with (4 * k)%nat by lia. exact T3.
Qed.
Lemma c100_turn c e e' had em tk mu had' em' tk' mu' k ie ip mem : complete c e -> complete c e' -> turned_by k e e' ->
  had_reference c e had -> other_regions c e em tk mu -> had_reference c e' had' -> other_regions c e' em' tk' mu' -> (ie < 3)%nat -> (ip < 6)%nat ->
  let r := (6 * ie + (ip + k) mod 6)%nat in let r' := (6 * ie + ip)%nat in
  nth r' mu' [] = nth r mu [] \/ (k = 3%nat /\ fibres_turned 2 (ev_mu e) (ev_mu e')) ->
  pfalgo3_full mem (NSELCALO c) (nth r' em' []) (nth r' had' []) (nth r' tk' []) (nth r' mu' []) = pfalgo3_full mem (NSELCALO c) (nth r em []) (nth r had []) (nth r tk []) (nth r mu []) /\
  pfalgo3_full_ref mem (NSELCALO c) (nth r' em' []) (nth r' had' []) (nth r' tk' []) (nth r' mu' []) = pfalgo3_full_ref mem (NSELCALO c) (nth r em []) (nth r had []) (nth r tk []) (nth r mu []).
Proof.
  intros C C' T H O H' O' He Hp r r' M. destruct (c100_regions c e e' had em tk mu had' em' tk' mu' k ie ip C C' T H O H' O' He Hp) as (E1 & E2 & E3). fold r r' in E1, E2, E3.
  assert (E4 : nth r' mu' [] = nth r mu []).
  { destruct M as [M|[-> M]]; [exact M|]. destruct (mu_gives c e mu C (proj2 (proj2 O))) as (o & G & ->). destruct (mu_gives c e' mu' C' (proj2 (proj2 O'))) as (o' & G' & ->). rewrite !nth_mm. f_equal.
    refine (c91_muon_rotation 0 _ _ _ o o' _ _ _ G G' ie ip He Hp); [apply mu_fib, C|apply mu_fib, C'|apply turn_r; exact M]. }
  rewrite E1, E2, E3, E4. split; reflexivity.
Qed.

(** ** locality *)
Lemma arrivals_same {A} nf cnt (fibers fibers' : list (list (robj A))) s : (forall f, (f < nf)%nat -> nth (nf * s + f) fibers [] = nth (nf * s + f) fibers' []) -> arrivals nf cnt fibers s = arrivals nf cnt fibers' s.
Proof.
  intros H. unfold arrivals. generalize (seq 0 cnt). intros l. induction l as [|io l IH]; [reflexivity|]. cbn [flat_map]. rewrite IH. f_equal. clear IH.
  rewrite !flat_map_concat_map. f_equal. apply map_ext_in. intros f Hf. apply in_seq in Hf. rewrite H by lia. reflexivity.
Qed.
Lemma c100_local c e e' had em tk mu had' em' tk' mu' ie ip mem : complete c e -> complete c e' -> same_near ip e e' -> ev_mu e = ev_mu e' ->
  had_reference c e had -> other_regions c e em tk mu -> had_reference c e' had' -> other_regions c e' em' tk' mu' -> (ie < 3)%nat -> (ip < 6)%nat ->
  let r := (6 * ie + ip)%nat in
  pfalgo3_full mem (NSELCALO c) (nth r em' []) (nth r had' []) (nth r tk' []) (nth r mu' []) = pfalgo3_full mem (NSELCALO c) (nth r em []) (nth r had []) (nth r tk []) (nth r mu []) /\
  pfalgo3_full_ref mem (NSELCALO c) (nth r em' []) (nth r had' []) (nth r tk' []) (nth r mu' []) = pfalgo3_full_ref mem (NSELCALO c) (nth r em []) (nth r had []) (nth r tk []) (nth r mu []).
Proof.
  intros C C' S M H (O1 & O2 & O3) H' (O1' & O2' & O3') He Hp r.
  assert (E1 : nth r had' [] = nth r had []).
  { destruct (had_gives c e had C H) as (o & G & ->). destruct (had_gives c e' had' C' H') as (o' & G' & ->). rewrite !nth_mm. f_equal. symmetry.
    refine (c91_local had_d 15 7 _ 1 _ _ o o' ie ip _ _ He Hp G G' _); [apply (fib_ok 15 1 15); [reflexivity|apply C]|apply (fib_ok 15 1 15); [reflexivity|apply C']|].
    intros j Hj. f_equal. apply arrivals_same. intros f Hf. replace (1 * region_sector ip j + f)%nat with (region_sector ip j) by lia. rewrite !nth_mm. f_equal. exact (proj1 (S j Hj)). }
  assert (E2 : nth r em' [] = nth r em []).
  { destruct (em_gives c e em C O1) as (o & G & ->). destruct (em_gives c e' em' C' O1') as (o' & G' & ->). rewrite !nth_mm. f_equal. symmetry.
    refine (c91_local 0 12 7 _ 1 _ _ o o' ie ip _ _ He Hp G G' _); [apply (fib_ok 12 1 12); [reflexivity|apply C]|apply (fib_ok 12 1 12); [reflexivity|apply C']|].
    intros j Hj. f_equal. apply arrivals_same. intros f Hf. replace (1 * region_sector ip j + f)%nat with (region_sector ip j) by lia. rewrite !nth_mm. f_equal. exact (proj1 (proj2 (S j Hj))). }
  assert (E3 : nth r tk' [] = nth r tk []).
  { destruct (tk_gives c e tk C O2) as (o & G & ->). destruct (tk_gives c e' tk' C' O2') as (o' & G' & ->). rewrite !nth_mm. f_equal. symmetry.
    refine (c91_local tk_d 20 9 _ 2 _ _ o o' ie ip _ _ He Hp G G' _); [apply (fib_ok 20 2 10); [reflexivity|apply C]|apply (fib_ok 20 2 10); [reflexivity|apply C']|].
    intros j Hj. f_equal. apply arrivals_same. intros f Hf. rewrite !nth_mm. f_equal. destruct (S j Hj) as (_ & _ & S1 & S2). assert (f = 0 \/ f = 1)%nat as [->| ->] by lia; [rewrite Nat.add_0_r; exact S1|exact S2]. }
  assert (E4 : nth r mu' [] = nth r mu []).
  { destruct (mu_gives c e mu C O3) as (o & G & ->). destruct (mu_gives c e' mu' C' O3') as (o' & G' & ->). rewrite <- M in G'. rewrite (muons_unique _ _ _ _ _ G G'). reflexivity. }
  rewrite E1, E2, E3, E4. split; reflexivity.
Qed.
