(** Model of regionizer/firmware/regionizer.cpp and regionizer/regionizer_ref.cpp.
    The templates are over the object type T; an object is a record with the
    three fields they touch and a payload [A] for the others (HadCaloObj:
    hwEmPt, hwIsEM; EmCaloObj, MuObj: hwPtErr; TkObj: hwPtErr, hwZ0,
    hwTightQuality).  [d : A] is the payload of a cleared object. *)
From Verif Require Export Base Data PFHw.

Record robj (A : Type) := mkR { r_pt : Z; r_eta : Z; r_phi : Z; r_rest : A }.
Arguments mkR {A}. Arguments r_pt {A}. Arguments r_eta {A}. Arguments r_phi {A}. Arguments r_rest {A}.

(** firmware/data.h:63-65, 71-73, 81-83, 89-91 [clear] *)
Definition rclear {A} (d : A) : robj A := mkR 0 0 0 d.
(** [o.hwEta += s], [o.hwPhi += s] on ap_int<10> *)
Definition add_eta {A} (s : Z) (o : robj A) : robj A := mkR (r_pt o) (wrapS 10 (r_eta o + s)) (r_phi o) (r_rest o).
Definition add_phi {A} (s : Z) (o : robj A) : robj A := mkR (r_pt o) (r_eta o) (wrapS 10 (r_phi o + s)) (r_rest o).

(** regionizer.h:7-34 *)
Definition N_IN_SECTORS : nat := 12.
Definition N_MUON_SECTORS : nat := 4.
Definition N_OUT_REGIONS_ETA : nat := 3.
Definition N_OUT_REGIONS_PHI : nat := 6.
Definition N_OUT_REGIONS : nat := 18.
Definition ETA_MIN : list Z := [-342; -171; 57].
Definition ETA_MAX : list Z := [-57; 171; 342].
Definition ETA_SHIFT : list Z := [171; 0; -171].
Definition IN_SECTOR_OF_REGION : list (list nat) :=
  [[0; 1; 2]; [2; 3; 4]; [4; 5; 6]; [6; 7; 8]; [8; 9; 10]; [10; 11; 0]]%nat.
Definition PHI_SEC_SIZE : Z := 120.
Definition PHI_SHIFT : list Z := [-120; 0; 120].

(** regionizer_ref.cpp:4-15 [push_in] *)
Definition push_in {A} (n : nat) (x : robj A) (out : list (robj A)) : res (list (robj A)) :=
  shift_loop (fun o => r_pt o <? r_pt x) (fun o => r_pt o >=? r_pt x) x n out.

(** regionizer_ref.cpp:17-31 [push_in_sector_ref]: the stored copy has its eta
    shifted; comparisons use pt only *)
Definition push_in_sector_ref {A} (n : nat) (x : robj A) (out : list (robj A)) (emin emax eshift : Z) : res (list (robj A)) :=
  if (emin <=? r_eta x) && (r_eta x <=? emax) then
    shift_loop (fun o => r_pt o <? r_pt x) (fun o => r_pt o >=? r_pt x) (add_eta eshift x) n out
  else Ok out.

(** regionizer.cpp:22-36 [push_in_sector_eta] *)
Definition push_in_sector_eta {A} (n : nat) (x : robj A) (out : list (robj A)) (emin emax eshift : Z) : res (list (robj A)) :=
  if (emin <=? r_eta x) && (r_eta x <=? emax) then
    shift_loop (fun o => r_pt o <? r_pt x) (fun o => r_pt o >=? r_pt x) (add_eta eshift x) n out
  else Ok out.

(** hls::stream::read *)
Definition sread {A} (fibers : list (list A)) (j : nat) : res (A * list (list A)) :=
  do s <- rd fibers j;
  match s with
  | [] => UB EmptyStream
  | x :: r => do fibers <- wr fibers j r; Ok (x, fibers)
  end.

(** [for ie: push(in, work[is][ie], ETA_MIN[ie], ETA_MAX[ie], ETA_SHIFT[ie])]:
    regionizer.cpp:52-54, regionizer_ref.cpp:80-83, 157-159 *)
Definition push_etas {A} (push : robj A -> list (robj A) -> Z -> Z -> Z -> res (list (robj A)))
    (x : robj A) (is : nat) (work : list (list (list (robj A)))) : res (list (list (list (robj A)))) :=
  foldM (fun work ie =>
    do row <- rd work is; do a <- rd row ie;
    do emin <- rd ETA_MIN ie; do emax <- rd ETA_MAX ie; do esh <- rd ETA_SHIFT ie;
    do a <- push x a emin emax esh;
    do row <- wr row ie a; wr work is row) (seq 0 N_OUT_REGIONS_ETA) work.

(** regionizer.cpp:40-46, regionizer_ref.cpp:67-73, 145-151: [clear] every
    element of the work area (a local array in the firmware, a static one, left
    by the previous call, in the reference), and regionizer_ref.cpp:95-99,
    163-167, 126-130: every element of the output *)
Definition clear_all {A} (d : A) (l : list (list (robj A))) : list (list (robj A)) :=
  map (fun a => map (fun _ => rclear d) a) l.
Definition clear_work {A} (d : A) (work : list (list (list (robj A)))) : list (list (list (robj A))) :=
  map (clear_all d) work.

(** regionizer.cpp:38-57 [deserialize_ptsort_eta] *)
Definition deserialize_ptsort_eta {A} (d : A) (nobj n : nat) (fibers : list (list (robj A))) (work : list (list (list (robj A))))
  : res (list (list (robj A)) * list (list (list (robj A)))) :=
  foldM (fun st _ =>
    foldM (fun '(fibers, work) is =>
      do (x, fibers) <- sread fibers is;
      do work <- push_etas (push_in_sector_eta n) x is work;
      Ok (fibers, work)) (seq 0 N_IN_SECTORS) st) (seq 0 nobj) (fibers, clear_work d work).

(** regionizer_ref.cpp:64-86: the same with [nf] fibres per sector *)
Definition deserialize_ref {A} (d : A) (nobj n nf : nat) (fibers : list (list (robj A))) (work : list (list (list (robj A))))
  : res (list (list (robj A)) * list (list (list (robj A)))) :=
  foldM (fun st _ =>
    foldM (fun st is =>
      foldM (fun '(fibers, work) f =>
        do (x, fibers) <- sread fibers (nf * is + f);
        do work <- push_etas (push_in_sector_ref n) x is work;
        Ok (fibers, work)) (seq 0 nf) st) (seq 0 N_IN_SECTORS) st) (seq 0 (nobj / nf)) (fibers, clear_work d work).

(** regionizer.cpp:71-82, 84-95: insert one list of a sector into tmp *)
Definition insert_list {A} (nreg : nat) (shift : Z) (l : list (robj A)) (nsec : nat) (tmp : list (robj A)) : res (list (robj A)) :=
  foldM (fun tmp it => do x <- rd l it;
    shift_loop (fun o => r_pt o <? r_pt x) (fun o => r_pt o >=? r_pt x) (if r_pt x >? 0 then add_phi shift x else x) nreg tmp) (seq 0 nsec) tmp.

(** regionizer.cpp:59-101 [merge_smart]: [junk] is the uninitialised tmp, of
    N_OBJ_PER_REGION entries. *)
Definition merge_smart {A} (d : A) (nsec nreg : nat) (l1 : list (robj A)) (s1 : Z) (l2 : list (robj A)) (s2 : Z) (l3 : list (robj A)) (s3 : Z)
    (junk : nat -> robj A) (out : list (robj A)) : res (list (robj A)) :=
  let tmp := map junk (seq 0 nreg) in
  do tmp <- foldM (fun tmp i => do x <- rd l1 i; wr tmp i (if r_pt x >? 0 then add_phi s1 x else x)) (seq 0 nsec) tmp;
  do tmp <- foldM (fun tmp i => wr tmp i (rclear d)) (seq nsec (nreg - nsec)) tmp;
  do tmp <- insert_list nreg s2 l2 nsec tmp;
  do tmp <- insert_list nreg s3 l3 nsec tmp;
  foldM (fun out i => do x <- rd tmp i; wr out i x) (seq 0 nreg) out.

(** regionizer_ref.cpp:33-60 [merge_sectors_ref]; the flag stands for [break] *)
Record mstate (A : Type) := mkM { m_i1 : nat; m_i2 : nat; m_i3 : nat; m_out : list (robj A); m_break : bool }.
Arguments mkM {A}. Arguments m_i1 {A}. Arguments m_i2 {A}. Arguments m_i3 {A}. Arguments m_out {A}. Arguments m_break {A}.

Definition head_pt {A} (nsec : nat) (l : list (robj A)) (i : nat) : res Z :=
  if (i <? nsec)%nat then do x <- rd l i; Ok (r_pt x) else Ok 0.

Definition merge_ref_step {A} (nsec : nat) (l1 : list (robj A)) (s1 : Z) (l2 : list (robj A)) (s2 : Z) (l3 : list (robj A)) (s3 : Z)
    (st : mstate A) (i : nat) : res (mstate A) :=
  if m_break st then Ok st else
  let '(mkM i1 i2 i3 out _) := st in
  do pt1 <- head_pt nsec l1 i1; do pt2 <- head_pt nsec l2 i2; do pt3 <- head_pt nsec l3 i3;
  if (pt1 >=? pt2) && (pt1 >=? pt3) then
    if pt1 =? 0 then Ok (mkM i1 i2 i3 out true) else
    do x <- rd l1 i1; do out <- wr out i (add_phi s1 x); Ok (mkM (S i1) i2 i3 out false)
  else if (pt1 <? pt2) && (pt2 >=? pt3) then
    if (i2 <? nsec)%nat then
      do x <- rd l2 i2; do out <- wr out i (add_phi s2 x); Ok (mkM i1 (S i2) i3 out false)
    else UB AssertFail
  else
    if (i3 <? nsec)%nat then
      do x <- rd l3 i3; do out <- wr out i (add_phi s3 x); Ok (mkM i1 i2 (S i3) out false)
    else UB AssertFail.

Definition merge_sectors_ref {A} (d : A) (nsec nreg : nat) (l1 : list (robj A)) (s1 : Z) (l2 : list (robj A)) (s2 : Z) (l3 : list (robj A)) (s3 : Z)
    (out : list (robj A)) : res (list (robj A)) :=
  do st <- foldM (merge_ref_step nsec l1 s1 l2 s2 l3 s3) (seq 0 nreg) (mkM 0 0 0 (map (fun _ => rclear d) out) false);
  Ok (m_out st).

(** the loop over regions: regionizer.cpp:116-121, regionizer_ref.cpp:101-111 *)
Definition merge_loop {A} (merge : list (robj A) -> Z -> list (robj A) -> Z -> list (robj A) -> Z -> nat -> list (robj A) -> res (list (robj A)))
    (work : list (list (list (robj A)))) (regions : list (list (robj A))) : res (list (list (robj A))) :=
  foldM (fun regions ie =>
    foldM (fun regions ip =>
      let ir := (N_OUT_REGIONS_PHI * ie + ip)%nat in
      do secs <- rd IN_SECTOR_OF_REGION ip;
      do s0 <- rd secs 0; do s1 <- rd secs 1; do s2 <- rd secs 2;
      do w0 <- rd work s0; do l0 <- rd w0 ie; do w1 <- rd work s1; do l1 <- rd w1 ie; do w2 <- rd work s2; do l2 <- rd w2 ie;
      do p0 <- rd PHI_SHIFT 0; do p1 <- rd PHI_SHIFT 1; do p2 <- rd PHI_SHIFT 2;
      do r <- rd regions ir; do r <- merge l0 p0 l1 p1 l2 p2 ir r;
      wr regions ir r) (seq 0 N_OUT_REGIONS_PHI) regions) (seq 0 N_OUT_REGIONS_ETA) regions.

(** regionizer.cpp:112-122 [regionize_hadcalo] (the only instance in the
    firmware), over the object counts; [regions] is the previous content of the
    output, [junk ir] the uninitialised tmp of the call for region [ir], and
    [work] the uninitialised work area. *)
Definition regionize_hw {A} (d : A) (nobj nsec nreg : nat) (junk : nat -> nat -> robj A) (work : list (list (list (robj A))))
    (fibers : list (list (robj A))) (regions : list (list (robj A))) : res (list (list (robj A)) * list (list (robj A))) :=
  do (fibers, work) <- deserialize_ptsort_eta d nobj nsec fibers work;
  do regions <- merge_loop (fun l0 p0 l1 p1 l2 p2 ir r => merge_smart d nsec nreg l0 p0 l1 p1 l2 p2 (junk ir) r) work regions;
  Ok (regions, fibers).

(** regionizer_ref.cpp:62-112 [regionize_ref]: [work] is the static area left
    by the previous call and [regions] the previous content of the output;
    returns the regions, the fibres and the static area. *)
Definition regionize_ref {A} (d : A) (nobj nsec nreg nf : nat) (work : list (list (list (robj A))))
    (fibers : list (list (robj A))) (regions : list (list (robj A))) : res (list (list (robj A)) * list (list (robj A)) * list (list (list (robj A)))) :=
  do (fibers, work) <- deserialize_ref d nobj nsec nf fibers work;
  do regions <- merge_loop (fun l0 p0 l1 p1 l2 p2 _ r => merge_sectors_ref d nsec nreg l0 p0 l1 p1 l2 p2 r) work (clear_all d regions);
  Ok (regions, fibers, work).

(** regionizer.h:38-44: objects read per sector and kept per sector and eta *)
Definition NCALO_PER_SECTOR : nat := 15.
Definition NCALO_PER_SECTOR_PER_ETA : nat := 7.
Definition NEMCALO_PER_SECTOR : nat := 12.
Definition NEMCALO_PER_SECTOR_PER_ETA : nat := 7.
Definition NTRACK_PER_SECTOR : nat := 20.
Definition NTRACK_PER_SECTOR_PER_ETA : nat := 9.

(** the instances: regionizer.cpp:103-122 and regionizer_ref.cpp:114-122, over
    the build configuration of firmware/data.h *)
Definition regionize_hadcalo {A} (cfg : config) (d : A) := regionize_hw d NCALO_PER_SECTOR NCALO_PER_SECTOR_PER_ETA (NCALO cfg).
Definition regionize_hadcalo_ref {A} (cfg : config) (d : A) := regionize_ref d NCALO_PER_SECTOR NCALO_PER_SECTOR_PER_ETA (NCALO cfg) 1.
Definition regionize_emcalo_ref {A} (cfg : config) (d : A) := regionize_ref d NEMCALO_PER_SECTOR NEMCALO_PER_SECTOR_PER_ETA (NEMCALO cfg) 1.
Definition regionize_track_ref {A} (cfg : config) (d : A) := regionize_ref d NTRACK_PER_SECTOR NTRACK_PER_SECTOR_PER_ETA (NTRACK cfg) 2.

(** ** muons *)

(** regionizer_ref.cpp:125-139 [merge_muon_in] *)
Definition merge_muon_in {A} (d : A) (nmu : nat) (input out : list (list (robj A))) : res (list (list (robj A))) :=
  foldM (fun out ics =>
    let is := (ics / 3)%nat in
    foldM (fun out io =>
      do row <- rd input ics; do mu <- rd row io;
      do sh <- rd PHI_SHIFT (ics mod 3);
      do o <- rd out is; do o <- push_in nmu (add_phi sh mu) o; wr out is o) (seq 0 nmu) out)
    (seq 0 N_IN_SECTORS) (clear_all d out).

(** one of the two loops of regionizer_ref.cpp:181-194 and 197-210: push the
    muons of [src] passing [keep], shifted in phi, into [dst] *)
Definition push_muons {A} (nmu : nat) (keep : Z -> bool) (shift : Z) (src dst : list (robj A)) : res (list (robj A)) :=
  foldM (fun dst io => do mu <- rd src io;
    if keep (r_phi mu) then push_in nmu (add_phi shift mu) dst else Ok dst) (seq 0 nmu) dst.

(** regionizer_ref.cpp:172-212: one region; [PHI_SEC_SIZE/2] is 60 and
    [-PHI_SEC_SIZE/2] is -60 *)
Definition muon_region {A} (nmu : nat) (work : list (list (list (robj A)))) (ie ip : nat) (region : list (robj A)) : res (list (robj A)) :=
  let is := (2 * ip)%nat in
  match (ip mod 3)%nat with
  | O => do w <- rd work (is / 3); do a <- rd w ie;
         foldM (fun r io => do mu <- rd a io; wr r io mu) (seq 0 nmu) region
  | S O => do w <- rd work (is / 3); do a <- rd w ie;
           do region <- push_muons nmu (fun phi => phi >? PHI_SEC_SIZE / 2) (- (2 * PHI_SEC_SIZE)) a region;
           do w <- rd work ((is / 3 + 1) mod N_MUON_SECTORS); do a <- rd w ie;
           push_muons nmu (fun phi => phi <=? PHI_SEC_SIZE / 2) PHI_SEC_SIZE a region
  | _ => do w <- rd work (is / 3); do a <- rd w ie;
         do region <- push_muons nmu (fun phi => phi >? - (PHI_SEC_SIZE / 2)) (- PHI_SEC_SIZE) a region;
         do w <- rd work ((is / 3 + 1) mod N_MUON_SECTORS); do a <- rd w ie;
         push_muons nmu (fun phi => phi <=? - (PHI_SEC_SIZE / 2)) (2 * PHI_SEC_SIZE) a region
  end.

(** regionizer_ref.cpp:143-160: the muon deserialiser *)
Definition deserialize_muon {A} (d : A) (nmu : nat) (fibers : list (list (robj A))) (work : list (list (list (robj A))))
  : res (list (list (robj A)) * list (list (list (robj A)))) :=
  foldM (fun st _ =>
    foldM (fun '(fibers, work) is =>
      do (x, fibers) <- sread fibers is;
      do work <- push_etas (push_in_sector_ref nmu) x is work;
      Ok (fibers, work)) (seq 0 N_MUON_SECTORS) st) (seq 0 nmu) (fibers, clear_work d work).

(** regionizer_ref.cpp:141-215 [regionize_muon_ref] *)
Definition regionize_muon_ref {A} (d : A) (nmu : nat) (work : list (list (list (robj A)))) (fibers regions : list (list (robj A)))
  : res (list (list (robj A)) * list (list (robj A)) * list (list (list (robj A)))) :=
  do (fibers, work) <- deserialize_muon d nmu fibers work;
  do regions <- foldM (fun regions ie =>
      foldM (fun regions ip =>
        let ir := (N_OUT_REGIONS_PHI * ie + ip)%nat in
        do r <- rd regions ir; do r <- muon_region nmu work ie ip r; wr regions ir r)
        (seq 0 N_OUT_REGIONS_PHI) regions) (seq 0 N_OUT_REGIONS_ETA) (clear_all d regions);
  Ok (regions, fibers, work).
