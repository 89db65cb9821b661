(** Where the energy of the clusters goes. *)
From Coq Require Import Permutation.
From Verif Require Import Base Data PFHw SpecLink SpecPF.

(** [em_had]: the hadronic cluster of an EM cluster; [tk_em], [tk_had]: the EM or hadronic cluster a
    track is balanced against; [left]: the neutral candidate of each hadronic cluster.
    - the neutrals are some of the candidates, each at most once;
    - a photon has exactly what the tracks of its EM cluster leave of it;
    - a candidate has exactly what its EM clusters and its tracks leave of its hadronic cluster;
    - an EM cluster that gives a photon or an electron is charged to the hadronic cluster it is nearest to, if any;
    - a track is balanced against one cluster at most, and is then a particle; it is an electron if and only if
      that is an EM cluster; a charged hadron above the threshold for unmatched tracks has a cluster; a muon has none. *)
Definition accounted (em : list EmCalo) (had : list HadCalo) (track : list Tk) (out : pfout) : Prop :=
  exists (em_had tk_em tk_had : nat -> option nat) (left : list Z),
  length left = length had /\ (exists others, Permutation (map n_pt (o_ne out) ++ others) left) /\
  (forall k e p, nth_error em k = Some e -> nth_error (o_pho out) k = Some p ->
     (n_pt p = 0 \/ 0 < n_pt p /\ n_pt p + sum_where (fun i _ => opt_is (tk_em i) k) t_pt track = e_pt e) /\
     (0 < n_pt p -> em_had k = best (cand_em_had had e))) /\
  (forall h c p, nth_error had h = Some c -> nth_error left h = Some p ->
     p = 0 \/ 0 < p /\ p + sum_where (fun k _ => opt_is (em_had k) h) e_pt em + sum_where (fun i _ => opt_is (tk_had i) h) t_pt track = h_pt c) /\
  (forall i tk c, nth_error track i = Some tk -> nth_error (o_ch out) i = Some c -> 0 < t_pt tk ->
     (tk_em i <> None <-> c_id c = PID_Electron) /\ (tk_em i <> None -> tk_had i = None) /\
     (tk_em i <> None \/ tk_had i <> None -> c_pt c = t_pt tk /\ c_id c <> PID_Muon) /\
     (0 < c_pt c -> c_id c = PID_Charged -> (if t_tight tk then 80 else 40) <= t_pt tk -> tk_had i <> None) /\
     (forall k e, tk_em i = Some k -> nth_error em k = Some e -> em_had k = best (cand_em_had had e))).

(** EM energy in the hadronic cluster number [h], and in none *)
Definition em_inside (em : list EmCalo) (had : list HadCalo) (h : nat) : Z :=
  sum_where (fun _ e => opt_is (best (cand_em_had had e)) h) e_pt em.
Definition em_alone (em : list EmCalo) (had : list HadCalo) : Z :=
  sum_where (fun _ e => match best (cand_em_had had e) with None => true | Some _ => false end) e_pt em.
(** the energy there is: EM clusters outside hadronic ones, and for each hadronic cluster its own or that of
    the EM clusters in it, whichever is larger *)
Definition energy_seen (em : list EmCalo) (had : list HadCalo) : Z :=
  em_alone em had + sumZ (mapi (fun h c => Z.max (h_pt c) (em_inside em had h)) had).
