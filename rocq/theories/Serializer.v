(** Model of utils/pattern_serializer.{h,cpp}: MP7PatternSerializer and
    CTP7PatternSerializer.  A line of the file is its frame number and the
    words printed on it; [SerText] renders lines as characters.
    Not modelled: the header's board name beyond its text, fopen failure, the
    progress messages on the console (Console.v), the human-readable file (HumanRead.v). *)
From Verif Require Import Base Data.

Definition line : Type := Z * list Z.

(** the const members, pattern_serializer.h:50-52 *)
Record mp7cfg := mkMp7Cfg { p_nlinks : nat; p_nmux : nat; p_nchann : nat; p_nempty : nat; p_magic : bool }.
(** the mutable members, pattern_serializer.h:53-54, 66.  [s_open] is
    [file_ != nullptr], [s_lines] what has been printed after the header. *)
Record mp7 := mkMp7 { s_open : bool; s_ipattern : Z; s_buffer : list (list Z); s_lines : list line }.

(** pattern_serializer.cpp:79-85 (the buffer has nmux patterns of MP7_NCHANN words) *)
Definition mp7_zero (cfg : mp7cfg) : list (list Z) := repeat (repeat 0 MP7_NCHANN) (p_nmux cfg).

(** pattern_serializer.cpp:7-24; [named] is [!fname.empty()].  The members are
    initialised before the assertion, so nmux = 0 divides by zero first;
    std::abs of the most negative int is undefined. *)
Definition mp7_open (named : bool) (nmux : nat) (nempty : Z) (nlinks : nat) : res (mp7cfg * mp7) :=
  if (nmux =? 0)%nat then UB DivByZero
  else
    do ne <- i32 (Z.abs nempty);
    let cfg := mkMp7Cfg (if (nlinks =? 0)%nat then (MP7_NCHANN / nmux)%nat else nlinks) nmux (MP7_NCHANN / nmux) (Z.to_nat ne) (nempty <? 0) in
    if (1 <? nmux)%nat
    then if (MP7_NCHANN mod nmux =? 0)%nat then Ok (cfg, mkMp7 named 0 (mp7_zero cfg) []) else UB AssertFail
    else Ok (cfg, mkMp7 named 0 [] []).

(** pattern_serializer.cpp:54-62 *)
Definition mp7_print (cfg : mp7cfg) (iframe : Z) (event : list Z) (lines : list line) : res (list line) :=
  do ws <- mapM (rd event) (seq 0 (p_nlinks cfg));
  Ok (lines ++ [(iframe, ws)]).

(** pattern_serializer.cpp:73-78; unsigned arithmetic *)
Definition mp7_flush (cfg : mp7cfg) (s : mp7) : res mp7 :=
  do ls <- foldM (fun ls im => do row <- rd (s_buffer s) im;
                               mp7_print cfg (wrapU 32 (s_ipattern s - Z.of_nat (p_nmux cfg) + 1 + Z.of_nat im)) row ls)
                 (seq 0 (p_nmux cfg)) (s_lines s);
  Ok (mkMp7 (s_open s) (s_ipattern s) (mp7_zero cfg) ls).

(** pattern_serializer.cpp:66-70: the two loops with their common counter i *)
Definition mp7_fill (cfg : mp7cfg) (offs : nat) (event : list Z) (buf : list (list Z)) : res (list (list Z)) :=
  do (_, b) <- foldM (fun st ic =>
      foldM (fun '(i, b) im =>
          do w <- rd event i;
          do row <- rd b im;
          do row' <- wr row (offs + ic) w;
          do b' <- wr b im row';
          Ok (S i, b')) (seq 0 (p_nmux cfg)) st) (seq 0 (p_nchann cfg)) (0%nat, buf);
  Ok b.

(** pattern_serializer.cpp:63-72 *)
Definition mp7_push (cfg : mp7cfg) (s : mp7) (event : list Z) : res mp7 :=
  let imux := Z.to_nat (s_ipattern s mod Z.of_nat (p_nmux cfg)) in
  do b <- mp7_fill cfg (imux * p_nchann cfg) event (s_buffer s);
  let s' := mkMp7 (s_open s) (s_ipattern s) b (s_lines s) in
  if (imux =? p_nmux cfg - 1)%nat then mp7_flush cfg s' else Ok s'.

(** pattern_serializer.cpp:38-40 and 48-50 *)
Definition mp7_one (cfg : mp7cfg) (s : mp7) (event : list Z) : res mp7 :=
  do s' <- (if (p_nmux cfg =? 1)%nat
            then do ls <- mp7_print cfg (s_ipattern s) event (s_lines s); Ok (mkMp7 (s_open s) (s_ipattern s) (s_buffer s) ls)
            else mp7_push cfg s event);
  Ok (mkMp7 (s_open s') (wrapU 32 (s_ipattern s' + 1)) (s_buffer s') (s_lines s')).

(** pattern_serializer.cpp:43-47: the filler word j *)
Definition mp7_magic (cfg : mp7cfg) (ipattern iempty j : Z) : Z :=
  if p_magic cfg
  then Z.lor (Z.lor (Z.land (wrapU 32 (Z.shiftl ipattern 16)) 0xFFFF0000) (Z.land (wrapU 32 (Z.shiftl iempty 8)) 0xFF00)) (Z.land j 0xFF)
  else 0.

(** pattern_serializer.cpp:35-53 *)
Definition mp7_event (cfg : mp7cfg) (s : mp7) (event : list Z) : res mp7 :=
  if s_open s
  then do s' <- mp7_one cfg s event;
       foldM (fun s iempty => mp7_one cfg s (map (fun j => mp7_magic cfg (s_ipattern s) (Z.of_nat iempty) (Z.of_nat j)) (seq 0 MP7_NCHANN)))
             (seq 0 (p_nempty cfg)) s'
  else Ok s.

(** pattern_serializer.cpp:26-33: what is in the file after destruction *)
Definition mp7_close (cfg : mp7cfg) (s : mp7) : res (list line) :=
  if s_open s
  then if (1 <? p_nmux cfg)%nat && negb (s_ipattern s mod Z.of_nat (p_nmux cfg) =? 0)
       then do s' <- mp7_flush cfg s; Ok (s_lines s')
       else Ok (s_lines s)
  else Ok [].

(** a whole history: construct, one call per event, destroy; also returns what
    is in the file before destruction *)
Definition mp7_session (named : bool) (nmux : nat) (nempty : Z) (nlinks : nat) (events : list (list Z)) : res (list line * list line) :=
  do (cfg, s0) <- mp7_open named nmux nempty nlinks;
  do s <- foldM (mp7_event cfg) events s0;
  do closed <- mp7_close cfg s;
  Ok (s_lines s, closed).

(** CTP7PatternSerializer, pattern_serializer.cpp:178-231.  [c_ipattern] is
    ipattern_, never above 1024. *)
Record ctp7 := mkCtp7 { c_open : bool; c_nmux : nat; c_ipattern : nat; c_lines : list line }.
(** pattern_serializer.cpp:178-190 *)
Definition ctp7_open (named : bool) (nmux : nat) : res ctp7 :=
  if (nmux =? 0)%nat then UB DivByZero else Ok (mkCtp7 named nmux 0 []).
(** pattern_serializer.cpp:220-229: the empty lines; the state carries iframe *)
Definition ctp7_pad (nchann : nat) (st : nat * ctp7) : nat * ctp7 :=
  let '(iframe, s) := st in
  if (1023 <? c_ipattern s)%nat then st
  else (S iframe, mkCtp7 (c_open s) (c_nmux s) (S (c_ipattern s)) (c_lines s ++ [(Z.of_nat (S iframe), repeat 0 nchann)])).
(** pattern_serializer.cpp:207-231.  The [return] inside the loop equals
    skipping the remaining iterations, whose test stays true. *)
Definition ctp7_print (iframe : nat) (event : list Z) (nchann : nat) (s : ctp7) : res ctp7 :=
  if (1023 <? c_ipattern s)%nat then Ok s
  else do ws <- mapM (rd event) (seq 0 nchann);
       let s' := mkCtp7 (c_open s) (c_nmux s) (S (c_ipattern s)) (c_lines s ++ [(Z.of_nat iframe, ws)]) in
       Ok (snd (fold_left (fun st _ => ctp7_pad nchann st) (seq 0 5) (iframe, s'))).
(** pattern_serializer.cpp:201-206 *)
Definition ctp7_event (s : ctp7) (p : list Z * nat) : res ctp7 :=
  let '(event, nchann) := p in
  if negb (c_open s) then Ok s
  else if (1023 <? c_ipattern s)%nat then Ok s
  else if (c_nmux s =? 1)%nat then ctp7_print (c_ipattern s) event nchann s else Ok s.
Definition ctp7_session (named : bool) (nmux : nat) (events : list (list Z * nat)) : res (list line) :=
  do s0 <- ctp7_open named nmux;
  do s <- foldM ctp7_event events s0;
  Ok (c_lines s).
