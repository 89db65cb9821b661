(** utils/DiscretePFInputs_IO.h: reading events and iterating over regions. *)
From Verif Require Import Base Data Discrete Convert.

(** DiscretePFInputs_IO.h:13-17; floats as bit patterns *)
Record event := mkEv { ev_run : Z; ev_lumi : Z; ev_event : Z; ev_z0 : Z; ev_genz0 : Z;
  ev_acm : Z; ev_acr : Z; ev_afm : Z; ev_afr : Z; ev_regions : list Region }.
(** DiscretePFInputs_IO.h:19: genZ0 is not initialised ([g]) *)
Definition event0 (g : Z) : event := mkEv 0 0 0 0 g 0 0 0 0 [].

(** DiscretePFInputs_IO.h:20-31.  The function ends without a return
    statement, which is undefined behaviour when the call is not
    [return false].  [tail] is what such a call amounts to: [UB MissingReturn]
    for the C++ standard, [Ok b] for a compiler that happens to return b. *)
Definition event_read (tail : res bool) (o : event) : reader (bool * event) :=
  get (rb, ok) <- fread 4 (le 4 (ev_run o));
  let run := unle rb in
  if negb ok then ret (false, mkEv run (ev_lumi o) (ev_event o) (ev_z0 o) (ev_genz0 o) (ev_acm o) (ev_acr o) (ev_afm o) (ev_afr o) (ev_regions o)) else
  get lumi <- freadU 4 (ev_lumi o); get num <- freadU 8 (ev_event o);
  get regions <- read_many region0 region_read (ev_regions o);
  get z0 <- freadU 4 (ev_z0 o); get gz <- freadU 4 (ev_genz0 o); get acm <- freadU 4 (ev_acm o); get acr <- freadU 4 (ev_acr o);
  get afm <- freadU 4 (ev_afm o); get afr <- freadU 4 (ev_afr o);
  fun s => do b <- tail; Ok ((b, mkEv run lumi num z0 gz acm acr afm afr regions), s).

(** the object: DiscretePFInputs_IO.h:87-89 *)
Record inputs := mkIn { in_file : file; in_event : event; in_region : nat }.
(** DiscretePFInputs_IO.h:36-39; [None]: fopen fails *)
Definition inputs_open (g : Z) (bytes : option (list Z)) : res inputs :=
  match bytes with None => UB AssertFail | Some bs => Ok (mkIn (mkFile bs false) (event0 g) 0) end.

(** fabs(x) > 1.5 for the float with pattern b (1.5 is 0x3fc00000): the
    patterns of non-negative floats are ordered as their values, and patterns
    above infinity's, 0x7f800000, are NaNs, which compare false *)
Definition abs_gt_1p5 (b : Z) : bool := (b mod 2 ^ 31 >? 1069547520) && (b mod 2 ^ 31 <=? 2139095040).

(** DiscretePFInputs_IO.h:70-85.  [None]: not finished after [fuel] rounds.
    iregion_ is unsigned int; the comparison with size() is in 64 bits. *)
Fixpoint next_region (tail : res bool) (fuel : nat) (s : inputs) : option (res (bool * inputs)) :=
  match fuel with
  | O => None
  | S fuel' =>
    let reload := (ev_event (in_event s) =? 0) || (Z.of_nat (in_region s) =? Z.of_nat (length (ev_regions (in_event s)))) in
    let step1 : res (bool * inputs) :=
      if reload then
        if f_eof (in_file s) then Ok (false, s) else
        do ((ok, ev), f) <- event_read tail (in_event s) (in_file s);
        if ok : bool then Ok (true, mkIn f ev 0) else Ok (false, mkIn f ev (in_region s))
      else Ok (true, s) in
    match step1 with
    | UB k => Some (UB k)
    | Ok (false, s1) => Some (Ok (false, s1))
    | Ok (true, s1) =>
      match rd (ev_regions (in_event s1)) (in_region s1) with
      | UB k => Some (UB k)
      | Ok r =>
        if abs_gt_1p5 (rg_etac r)
        then next_region tail fuel' (mkIn (in_file s1) (in_event s1) (Z.to_nat (wrapU 32 (Z.of_nat (in_region s1) + 1))))
        else Some (Ok (true, s1))
      end
    end
  end.

(** ** event_.z0 * 20 assigned to z0_t (DiscretePFInputs_IO.h:51-55)
    binary32: finite value (-1)^sign * m * 2^e *)
Definition f32_sign (b : Z) : bool := 2 ^ 31 <=? b.
Definition f32_expo (b : Z) : Z := (b / 2 ^ 23) mod 2 ^ 8.
Definition f32_frac (b : Z) : Z := b mod 2 ^ 23.
Definition f32_m (b : Z) : Z := if f32_expo b =? 0 then f32_frac b else 2 ^ 23 + f32_frac b.
Definition f32_e (b : Z) : Z := Z.max (f32_expo b) 1 - 150.
(** m / 2^k to nearest, ties to even *)
Definition rne (m k : Z) : Z :=
  let q := m / 2 ^ k in let r := m mod 2 ^ k in
  if (2 * r >? 2 ^ k) || ((2 * r =? 2 ^ k) && Z.odd q) then q + 1 else q.
(** The float product rounds 20 m to 24 bits; the conversion to ap_int<10>
    drops the fraction and wraps.  [special b]: the value ap_int's conversion
    gives for an infinite or NaN product (not modelled). *)
Definition zpv (special : Z -> Z) (b : Z) : Z :=
  let m := 20 * f32_m b in let e := f32_e b in
  let k := Z.max 0 (Z.log2 m - 23) in
  let m' := rne m k in
  if (f32_expo b =? 255) || (m' * 2 ^ (e + k + 149) >=? 2 ^ (128 + 149)) then special b else
  let t := if e + k >=? 0 then m' * 2 ^ (e + k) else m' / 2 ^ (- (e + k)) in
  z0_t (if f32_sign b then - t else t).

(** ** DiscretePFInputs_IO.h:42-60 *)
Record fwregion := mkFw { fw_calo : list HadCalo; fw_emcalo : list EmCalo; fw_track : list Tk; fw_muon : list Mu; fw_zpv : Z }.
Definition next_region_fw (c : config) (special : Z -> Z) (tail : res bool) (fuel : nat) (out : fwregion) (s : inputs) : option (res (bool * fwregion * inputs)) :=
  match next_region tail fuel s with
  | None => None
  | Some (UB k) => Some (UB k)
  | Some (Ok (false, s1)) => Some (Ok (false, out, s1))
  | Some (Ok (true, s1)) => Some (
      do r <- rd (ev_regions (in_event s1)) (in_region s1);
      do tk <- convert_in fw_tk tk0 (NTRACK c) (rg_track r) (fw_track out);
      do calo <- convert_in fw_had had0 (NCALO c) (rg_calo r) (fw_calo out);
      do em <- convert_in fw_em em0 (NEMCALO c) (rg_emcalo r) (fw_emcalo out);
      do mu <- convert_in fw_mu mu0 (NMU c) (rg_muon r) (fw_muon out);
      Ok (true, mkFw calo em tk mu (zpv special (ev_z0 (in_event s1))), mkIn (in_file s1) (in_event s1) (Z.to_nat (wrapU 32 (Z.of_nat (in_region s1) + 1)))))
  end.

(** DiscretePFInputs_IO.h:62-66 *)
Definition next_event (tail : res bool) (s : inputs) : res (bool * inputs) :=
  if f_eof (in_file s) then Ok (false, s) else
  do ((ok, ev), f) <- event_read tail (in_event s) (in_file s);
  Ok (ok, mkIn f ev (in_region s)).

(** a testbench calling nextRegion n times with the same arrays: the filled
    arrays for each call that returns true, [None] for each that returns false *)
Fixpoint region_calls (c : config) (special : Z -> Z) (tail : res bool) (fuel n : nat) (out : fwregion) (s : inputs) : option (res (list (option fwregion))) :=
  match n with
  | O => Some (Ok [])
  | S n' =>
    match next_region_fw c special tail fuel out s with
    | None => None
    | Some (UB k) => Some (UB k)
    | Some (Ok (b, out1, s1)) =>
      match region_calls c special tail fuel n' out1 s1 with
      | None => None
      | Some (UB k) => Some (UB k)
      | Some (Ok l) => Some (Ok ((if b then Some out1 else None) :: l))
      end
    end
  end.
Fixpoint event_calls (tail : res bool) (n : nat) (s : inputs) : res (list (option event)) :=
  match n with
  | O => Ok []
  | S n' => do (b, s1) <- next_event tail s; do l <- event_calls tail n' s1; Ok ((if b : bool then Some (in_event s1) else None) :: l)
  end.
