(** The discrete objects of DiscretePFInputs.h and their binary dump format.

    A FILE opened for reading is the list of the bytes not yet consumed and
    the end-of-file indicator; a FILE being written is the list of bytes
    written so far (writers return what they append).  Integers are stored
    little-endian, as on the x86 hosts the testbenches run on.  Floats are
    their 32-bit patterns.  std::vector is list; running out of memory in
    resize is not modelled. *)
From Verif Require Import Base Data.

(** ** Records *)
(** DiscretePFInputs.h:22-29 *)
Record Clu := mkClu { cl_pt : Z; cl_empt : Z; cl_pterr : Z; cl_eta : Z; cl_phi : Z; cl_flags : Z; cl_isem : bool; cl_used : bool }.
(** DiscretePFInputs.h:87-94 *)
Record ITk := mkITk { it_invpt : Z; it_veta : Z; it_vphi : Z; it_charge : bool; it_z0 : Z; it_chi2 : Z; it_stubs : Z; it_flags : Z }.
(** DiscretePFInputs.h:144-152  (derives from InputTrack: [pt_in]) *)
Record PTk := mkPTk { pt_in : ITk; pt_pt : Z; pt_pterr : Z; pt_calopterr : Z; pt_eta : Z; pt_phi : Z; pt_mulink : bool; pt_used : bool; pt_frompv : bool }.
(** DiscretePFInputs.h:199-204 *)
Record DMu := mkDMu { dm_pt : Z; dm_eta : Z; dm_phi : Z; dm_flags : Z; dm_charge : bool }.
(** DiscretePFInputs.h:242-254 *)
Record PFPart := mkPFPart { pp_pt : Z; pp_eta : Z; pp_phi : Z; pp_id : Z; pp_veta : Z; pp_vphi : Z; pp_flags : Z;
  pp_cluster : Clu; pp_track : PTk; pp_chargedpv : bool; pp_puppiw : Z; pp_status : Z }.
(** DiscretePFInputs.h:295-301; floats as bit patterns *)
Record Region := mkRegion { rg_etac : Z; rg_etamin : Z; rg_etamax : Z; rg_phic : Z; rg_phihw : Z; rg_etax : Z; rg_phix : Z;
  rg_calo : list Clu; rg_emcalo : list Clu; rg_track : list PTk; rg_muon : list DMu }.

(** value-initialised objects, as std::vector::resize appends them *)
Definition clu0 : Clu := mkClu 0 0 0 0 0 0 false false.
Definition itk0 : ITk := mkITk 0 0 0 false 0 0 0 0.
Definition ptk0 : PTk := mkPTk itk0 0 0 0 0 0 false false false.
Definition dmu0 : DMu := mkDMu 0 0 0 0 false.
(** DiscretePFInputs.h:303 *)
Definition region0 : Region := mkRegion 0 0 0 0 0 0 0 [] [] [] [].

(** ** Bytes *)
(** the n bytes of an n-byte object holding x *)
Fixpoint le (n : nat) (x : Z) : list Z :=
  match n with O => [] | S n' => x mod 256 :: le n' (x / 256) end.
Fixpoint unle (l : list Z) : Z :=
  match l with [] => 0 | b :: r => b + 256 * unle r end.

Record file := mkFile { f_rest : list Z; f_eof : bool }.
Definition reader (A : Type) : Type := file -> res (A * file).
Notation "'get' x <- e ; f" := (fun s0 => bind (e s0) (fun p0 => let '(x, s1) := p0 in f s1))
  (at level 200, x pattern, e at level 100, f at level 200, right associativity).
Definition ret {A} (x : A) : reader A := fun s => Ok (x, s).
Definition fail {A} (k : ubkind) : reader A := fun _ => UB k.

(** fread(&x, n, 1, file) on an n-byte object holding the bytes [old]: the
    bytes available overwrite the start of the object; when there are fewer
    than n the end-of-file indicator is set and the result is 0.
    Simplification: C leaves the value of a partially read element
    indeterminate; here the remaining bytes keep their old value. *)
Definition fread (n : nat) (old : list Z) : reader (list Z * bool) := fun s =>
  let k := Nat.min n (length (f_rest s)) in
  Ok ((firstn k (f_rest s) ++ skipn k old, (k =? n)%nat), mkFile (skipn k (f_rest s)) (f_eof s || (k <? n)%nat)).

(** unsigned and signed n-byte fields whose fread result is ignored *)
Definition freadU (n : nat) (old : Z) : reader Z := get (bs, _) <- fread n (le n old); ret (unle bs).
Definition freadS (n : nat) (old : Z) : reader Z := get (bs, _) <- fread n (le n old); ret (wrapS (8 * Z.of_nat n) (unle bs)).
(** a bool: a byte other than 0 and 1 is a trap representation.
    Simplification: flagged here, not at the first use of the value. *)
Definition freadB (old : bool) : reader bool := get (bs, _) <- fread 1 (le 1 (b2z old));
  match bs with [0] => ret false | [1] => ret true | _ => fail TrapRep end.

(** ** Writers *)
(** DiscretePFInputs.h:63-72 *)
Definition clu_write (c : Clu) : list Z :=
  le 2 (cl_pt c) ++ le 2 (cl_empt c) ++ le 2 (cl_pterr c) ++ le 2 (cl_eta c) ++ le 2 (cl_phi c) ++ le 2 (cl_flags c) ++ le 1 (b2z (cl_isem c)).
(** DiscretePFInputs.h:121-130 *)
Definition itk_write (t : ITk) : list Z :=
  le 2 (it_invpt t) ++ le 4 (it_veta t) ++ le 4 (it_vphi t) ++ le 1 (b2z (it_charge t)) ++ le 2 (it_z0 t) ++ le 2 (it_chi2 t) ++ le 2 (it_stubs t) ++ le 2 (it_flags t).
(** DiscretePFInputs.h:176-184 *)
Definition ptk_write (t : PTk) : list Z :=
  itk_write (pt_in t) ++ le 2 (pt_pt t) ++ le 2 (pt_pterr t) ++ le 2 (pt_calopterr t) ++ le 2 (pt_eta t) ++ le 2 (pt_phi t).
(** DiscretePFInputs.h:225-231 *)
Definition dmu_write (m : DMu) : list Z :=
  le 2 (dm_pt m) ++ le 2 (dm_eta m) ++ le 2 (dm_phi m) ++ le 2 (dm_flags m) ++ le 1 (b2z (dm_charge m)).
(** DiscretePFInputs.h:279-284: the count is truncated to 32 bits, and only
    that many objects follow *)
Definition write_many {T} (w : T -> list Z) (objs : list T) : list Z :=
  let number := wrapU 32 (Z.of_nat (length objs)) in
  le 4 number ++ concat (map w (firstn (Z.to_nat number) objs)).
(** DiscretePFInputs.h:308-321 *)
Definition region_write (r : Region) : list Z :=
  le 4 (rg_etac r) ++ le 4 (rg_etamin r) ++ le 4 (rg_etamax r) ++ le 4 (rg_phic r) ++ le 4 (rg_phihw r) ++ le 4 (rg_etax r) ++ le 4 (rg_phix r) ++
  write_many clu_write (rg_calo r) ++ write_many clu_write (rg_emcalo r) ++ write_many ptk_write (rg_track r) ++ write_many dmu_write (rg_muon r).

(** ** Readers: the first argument is the object before the call *)
(** DiscretePFInputs.h:73-82 *)
Definition clu_read (o : Clu) : reader Clu :=
  get pt <- freadS 2 (cl_pt o); get em <- freadS 2 (cl_empt o); get er <- freadS 2 (cl_pterr o); get eta <- freadS 2 (cl_eta o); get phi <- freadS 2 (cl_phi o);
  get fl <- freadU 2 (cl_flags o); get ie <- freadB (cl_isem o); ret (mkClu pt em er eta phi fl ie false).
(** DiscretePFInputs.h:131-140 *)
Definition itk_read (o : ITk) : reader ITk :=
  get ip <- freadU 2 (it_invpt o); get ve <- freadS 4 (it_veta o); get vp <- freadS 4 (it_vphi o); get ch <- freadB (it_charge o); get z0 <- freadS 2 (it_z0 o);
  get c2 <- freadU 2 (it_chi2 o); get st <- freadU 2 (it_stubs o); get fl <- freadU 2 (it_flags o); ret (mkITk ip ve vp ch z0 c2 st fl).
(** DiscretePFInputs.h:185-193 *)
Definition ptk_read (o : PTk) : reader PTk :=
  get i <- itk_read (pt_in o); get pt <- freadS 2 (pt_pt o); get er <- freadS 2 (pt_pterr o); get ce <- freadS 2 (pt_calopterr o);
  get eta <- freadS 2 (pt_eta o); get phi <- freadS 2 (pt_phi o); ret (mkPTk i pt er ce eta phi false false false).
(** DiscretePFInputs.h:232-238 *)
Definition dmu_read (o : DMu) : reader DMu :=
  get pt <- freadS 2 (dm_pt o); get eta <- freadS 2 (dm_eta o); get phi <- freadS 2 (dm_phi o); get fl <- freadU 2 (dm_flags o); get ch <- freadB (dm_charge o);
  ret (mkDMu pt eta phi fl ch).

(** std::vector::resize *)
Definition resize {T} (d : T) (n : nat) (l : list T) : list T := firstn n l ++ repeat d (n - length l).
Fixpoint read_each {T} (rd1 : T -> reader T) (l : list T) : reader (list T) :=
  match l with
  | [] => ret []
  | o :: r => get x <- rd1 o; get xs <- read_each rd1 r; ret (x :: xs)
  end.
(** DiscretePFInputs.h:286-292: [number] is an uninitialised local, so a short
    read leaves it indeterminate *)
Definition read_many {T} (d : T) (rd1 : T -> reader T) (objs : list T) : reader (list T) :=
  get (bs, ok) <- fread 4 [0; 0; 0; 0];
  if ok then read_each rd1 (resize d (Z.to_nat (unle bs)) objs) else fail Uninit.
(** DiscretePFInputs.h:322-335 *)
Definition region_read (o : Region) : reader Region :=
  get a <- freadU 4 (rg_etac o); get b <- freadU 4 (rg_etamin o); get c <- freadU 4 (rg_etamax o); get d <- freadU 4 (rg_phic o);
  get e <- freadU 4 (rg_phihw o); get f <- freadU 4 (rg_etax o); get g <- freadU 4 (rg_phix o);
  get calo <- read_many clu0 clu_read (rg_calo o); get em <- read_many clu0 clu_read (rg_emcalo o);
  get tk <- read_many ptk0 ptk_read (rg_track o); get mu <- read_many dmu0 dmu_read (rg_muon o);
  ret (mkRegion a b c d e f g calo em tk mu).
