(** Model of firmware/mp7pf_encoding.h and of the mp7wrapped_* functions of
    firmware/simple_fullpfalgo.cpp:513-640.  A data word (data.h:116,
    ap_uint<32>) is a [Z] in [0, 2^32). *)
From Verif Require Import Base Data PFHw.

(** ** ap_int bit operations *)
(** the bit pattern of a (signed) n-bit value as an unsigned number *)
Definition bits (n x : Z) : Z := wrapU n x.
(** [(hi, lo)]: concatenation, [lo] being [n] bits wide; result unsigned *)
Definition concat (n hi lo : Z) : Z := hi * 2 ^ n + bits n lo.
(** [w(hi,lo)]: range selection, unsigned *)
Definition slice (w hi lo : Z) : Z := (w / 2 ^ lo) mod 2 ^ (hi - lo + 1).
(** [w[k]] as a value and as an assignment target *)
Definition getbit (w k : Z) : bool := Z.odd (w / 2 ^ k).
Definition setbit (w k : Z) (b : bool) : Z := w - b2z (getbit w k) * 2 ^ k + b2z b * 2 ^ k.
(** assignment to MP7DataWord (data.h:116) *)
Definition word (x : Z) : Z := wrapU 32 x.

(** ** Packing (mp7pf_encoding.h:2-37) *)
Definition pack_em_body (offs : nat) (data : list Z) (p : nat * EmCalo) : res (list Z) :=
  let '(i, o) := p in
  do data <- wr data (2*i+0+offs) (word (concat 16 (bits 16 (e_pterr o)) (e_pt o)));
  wr data (2*i+1+offs) (word (concat 10 (bits 10 (e_phi o)) (e_eta o))).
(** mp7pf_encoding.h:2-9 *)
Definition mp7_pack_em (offs : nat) (em : list EmCalo) (data : list Z) : res (list Z) :=
  foldM (pack_em_body offs) (indexed em) data.

Definition pack_had_body (offs : nat) (data : list Z) (p : nat * HadCalo) : res (list Z) :=
  let '(i, o) := p in
  do data <- wr data (2*i+0+offs) (word (concat 16 (bits 16 (h_empt o)) (h_pt o)));
  wr data (2*i+1+offs) (word (concat 10 (concat 10 (b2z (h_isem o)) (h_phi o)) (h_eta o))).
(** mp7pf_encoding.h:11-18 *)
Definition mp7_pack_had (offs : nat) (had : list HadCalo) (data : list Z) : res (list Z) :=
  foldM (pack_had_body offs) (indexed had) data.

Definition pack_tk_body (offs : nat) (data : list Z) (p : nat * Tk) : res (list Z) :=
  let '(i, o) := p in
  do data <- wr data (2*i+0+offs) (word (concat 16 (bits 16 (t_pterr o)) (t_pt o)));
  do data <- wr data (2*i+1+offs) (word (concat 10 (concat 10 (bits 10 (t_z0 o)) (t_phi o)) (t_eta o)));
  do w <- rd data (2*i+1+offs);
  wr data (2*i+1+offs) (setbit w 30 (t_tight o)).
(** mp7pf_encoding.h:20-28 *)
Definition mp7_pack_tk (offs : nat) (tk : list Tk) (data : list Z) : res (list Z) :=
  foldM (pack_tk_body offs) (indexed tk) data.

Definition pack_mu_body (offs : nat) (data : list Z) (p : nat * Mu) : res (list Z) :=
  let '(i, o) := p in
  do data <- wr data (2*i+0+offs) (word (concat 16 (bits 16 (m_pterr o)) (m_pt o)));
  wr data (2*i+1+offs) (word (concat 10 (bits 10 (m_phi o)) (m_eta o))).
(** mp7pf_encoding.h:30-37 *)
Definition mp7_pack_mu (offs : nat) (mu : list Mu) (data : list Z) : res (list Z) :=
  foldM (pack_mu_body offs) (indexed mu) data.

(** ** Unpacking (mp7pf_encoding.h:40-85).  Every field of every output slot is
    written, so the previous contents of the output arrays do not matter;
    [n] is the template parameter N. *)
(** mp7pf_encoding.h:40-49 *)
Definition mp7_unpack_em (n offs : nat) (data : list Z) : res (list EmCalo) :=
  mapM (fun i => do w0 <- rd data (2*i+0+offs); do w1 <- rd data (2*i+1+offs);
          Ok (mkEm (pt_t (slice w0 15 0)) (pt_t (slice w0 31 16))
                   (etaphi_t (slice w1 9 0)) (etaphi_t (slice w1 19 10)))) (seq 0 n).
(** mp7pf_encoding.h:51-61 *)
Definition mp7_unpack_had (n offs : nat) (data : list Z) : res (list HadCalo) :=
  mapM (fun i => do w0 <- rd data (2*i+0+offs); do w1 <- rd data (2*i+1+offs);
          Ok (mkHad (pt_t (slice w0 15 0)) (etaphi_t (slice w1 9 0)) (etaphi_t (slice w1 19 10))
                    (pt_t (slice w0 31 16)) (getbit w1 20))) (seq 0 n).
(** mp7pf_encoding.h:63-74 *)
Definition mp7_unpack_tk (n offs : nat) (data : list Z) : res (list Tk) :=
  mapM (fun i => do w0 <- rd data (2*i+0+offs); do w1 <- rd data (2*i+1+offs);
          Ok (mkTk (pt_t (slice w0 15 0)) (pt_t (slice w0 31 16))
                   (etaphi_t (slice w1 9 0)) (etaphi_t (slice w1 19 10))
                   (z0_t (slice w1 29 20)) (getbit w1 30))) (seq 0 n).
(** mp7pf_encoding.h:76-85 *)
Definition mp7_unpack_mu (n offs : nat) (data : list Z) : res (list Mu) :=
  mapM (fun i => do w0 <- rd data (2*i+0+offs); do w1 <- rd data (2*i+1+offs);
          Ok (mkMu (pt_t (slice w0 15 0)) (pt_t (slice w0 31 16))
                   (etaphi_t (slice w1 9 0)) (etaphi_t (slice w1 19 10)))) (seq 0 n).

(** assert(2*a + 2*b + 2*c + 2*d <= MP7_NCHANN); [nch] is MP7_NCHANN *)
Definition assert_fits (nch a b c d : nat) : res unit :=
  if (2*a + 2*b + 2*c + 2*d <=? nch)%nat then Ok tt else UB AssertFail.

(** simple_fullpfalgo.cpp:513-528 *)
Definition mp7wrapped_pack_in (nch : nat) (em : list EmCalo) (had : list HadCalo) (tk : list Tk) (mu : list Mu)
    (data : list Z) : res (list Z) :=
  do _ <- assert_fits nch (length em) (length tk) (length had) (length mu);
  let hadoffs := (2 * length em)%nat in
  let tkoffs := (2 * length had + hadoffs)%nat in
  let muoffs := (2 * length tk + tkoffs)%nat in
  do data <- mp7_pack_em 0 em data;
  do data <- mp7_pack_had hadoffs had data;
  do data <- mp7_pack_tk tkoffs tk data;
  mp7_pack_mu muoffs mu data.

(** simple_fullpfalgo.cpp:530-545; the array sizes are arguments *)
Definition mp7wrapped_unpack_in (nch nem nhad ntk nmu : nat) (data : list Z)
    : res (list EmCalo * list HadCalo * list Tk * list Mu) :=
  do _ <- assert_fits nch nem ntk nhad nmu;
  let hadoffs := (2 * nem)%nat in
  let tkoffs := (2 * nhad + hadoffs)%nat in
  let muoffs := (2 * ntk + tkoffs)%nat in
  do em <- mp7_unpack_em nem 0 data;
  do had <- mp7_unpack_had nhad hadoffs data;
  do tk <- mp7_unpack_tk ntk tkoffs data;
  do mu <- mp7_unpack_mu nmu muoffs data;
  Ok (em, had, tk, mu).

(** loops of simple_fullpfalgo.cpp:558-561 and 570-573 *)
Definition pack_ch_body (offs : nat) (data : list Z) (p : nat * PFCh) : res (list Z) :=
  let '(i, o) := p in
  do data <- wr data (2*i+0+offs) (word (concat 16 (bits 3 (c_id o)) (c_pt o)));
  wr data (2*i+1+offs) (word (concat 10 (concat 10 (bits 10 (c_z0 o)) (c_phi o)) (c_eta o))).
(** loops of simple_fullpfalgo.cpp:562-565 and 566-569 *)
Definition pack_ne_body (offs : nat) (data : list Z) (p : nat * PFNe) : res (list Z) :=
  let '(i, o) := p in
  do data <- wr data (2*i+0+offs) (word (concat 16 (bits 3 (n_id o)) (n_pt o)));
  wr data (2*i+1+offs) (word (concat 10 (bits 10 (n_phi o)) (n_eta o))).

(** simple_fullpfalgo.cpp:547-575 *)
Definition mp7wrapped_pack_out (nch : nat) (pfch : list PFCh) (pfpho pfne : list PFNe) (pfmu : list PFCh)
    (data : list Z) : res (list Z) :=
  do _ <- assert_fits nch (length pfch) (length pfpho) (length pfne) (length pfmu);
  let phooffs := (2 * length pfch)%nat in
  let nhoffs := (2 * length pfpho + phooffs)%nat in
  let pfmuoffs := (2 * length pfne + nhoffs)%nat in
  do data <- foldM (pack_ch_body 0) (indexed pfch) data;
  do data <- foldM (pack_ne_body phooffs) (indexed pfpho) data;
  do data <- foldM (pack_ne_body nhoffs) (indexed pfne) data;
  foldM (pack_ch_body pfmuoffs) (indexed pfmu) data.

(** loops of simple_fullpfalgo.cpp:587-593 and 606-612 *)
Definition unpack_ch (n offs : nat) (data : list Z) : res (list PFCh) :=
  mapM (fun i => do w0 <- rd data (2*i+0+offs); do w1 <- rd data (2*i+1+offs);
          Ok (mkCh (pt_t (slice w0 15 0)) (etaphi_t (slice w1 9 0)) (etaphi_t (slice w1 19 10))
                   (wrapU 3 (slice w0 18 16)) (z0_t (slice w1 29 20)))) (seq 0 n).
(** loops of simple_fullpfalgo.cpp:594-605; hwPtPuppi keeps its old value *)
Definition unpack_ne (offs : nat) (data : list Z) (old : list PFNe) : res (list PFNe) :=
  mapM (fun '(i, o) => do w0 <- rd data (2*i+0+offs); do w1 <- rd data (2*i+1+offs);
          Ok (mkNe (pt_t (slice w0 15 0)) (etaphi_t (slice w1 9 0)) (etaphi_t (slice w1 19 10))
                   (wrapU 3 (slice w0 18 16)) (n_puppi o))) (indexed old).

(** simple_fullpfalgo.cpp:576-614.  [oldpho], [oldne]: the arrays being written
    (their lengths are NPHOTON, NSELCALO). *)
Definition mp7wrapped_unpack_out (nch ntk nmu : nat) (data : list Z) (oldpho oldne : list PFNe)
    : res (list PFCh * list PFNe * list PFNe * list PFCh) :=
  do _ <- assert_fits nch ntk (length oldpho) (length oldne) nmu;
  let phooffs := (2 * ntk)%nat in
  let nhoffs := (2 * length oldpho + phooffs)%nat in
  let pfmuoffs := (2 * length oldne + nhoffs)%nat in
  do pfch <- unpack_ch ntk 0 data;
  do pfpho <- unpack_ne phooffs data oldpho;
  do pfne <- unpack_ne nhoffs data oldne;
  do pfmu <- unpack_ch nmu pfmuoffs data;
  Ok (pfch, pfpho, pfne, pfmu).

(** simple_fullpfalgo.cpp:616-640; [mem] is the uninitialised stack memory
    (including the local pfpho array), [output] the previous output words. *)
Definition mp7wrapped_pfalgo3_full (nch nem nhad ntk nmu nsel : nat) (mem : pfmem) (input output : list Z) : res (list Z) :=
  do (em, had, tk, mu) <- mp7wrapped_unpack_in nch nem nhad ntk nmu input;
  do o <- pfalgo3_full mem nsel em had tk mu;
  mp7wrapped_pack_out nch (o_ch o) (o_pho o) (o_ne o) (o_mu o) output.
