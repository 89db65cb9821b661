(** The debugging printout does not touch the computation: every traced function
    is the function of PFRef together with a text that depends only on its
    arguments and intermediate results. *)
From Coq Require Import Ascii String.
From Verif Require Import Base BaseFacts MapiFacts Data PFHw PFRef SpecLink SpecPF LinkFacts PFMatch SerText Printf Fill PFDebug.
Local Open Scope list_scope.
Local Open Scope Z_scope.

(** ** Loops *)
Lemma mapM_text {A B} (f : nat -> A -> res (B * list ascii)) (f0 : A -> res B) (tx : nat -> A -> list ascii) l :
  (forall i x, nth_error l i = Some x -> f i x = do b <- f0 x; Ok (b, tx i x)) ->
  mapM (fun '(i, x) => f i x) (indexed l) = do r <- mapM f0 l; Ok (combine r (mapi tx l)).
Proof.
  intros H. assert (X : forall (L : list (nat * A)), (forall i x, In (i, x) L -> f i x = do b <- f0 x; Ok (b, tx i x)) ->
    mapM (fun '(i, x) => f i x) L = do r <- mapM f0 (map snd L); Ok (combine r (map (fun p => tx (fst p) (snd p)) L))).
  { induction L as [|[i x] L IH]; intros HL; [reflexivity|]. cbn [mapM map fst snd]. rewrite (HL i x) by (left; reflexivity).
    destruct (f0 x) as [b|]; [|reflexivity]. cbn [bind]. rewrite IH by (intros; apply HL; right; assumption).
    destruct (mapM f0 (map snd L)); reflexivity. }
  rewrite X; [|intros i x Hi; apply H; apply in_indexed; exact Hi]. rewrite map_snd_indexed. reflexivity.
Qed.
Lemma mapM_length {A B} (f : A -> res B) l r : mapM f l = Ok r -> length r = length l.
Proof.
  revert r. induction l as [|x l IH]; intros r; cbn [mapM]; [intros [= <-]; reflexivity|].
  destruct (f x); [|discriminate]. cbn [bind]. destruct (mapM f l) as [ys|]; [|discriminate]. cbn [bind]. intros [= <-]. cbn. rewrite (IH ys); reflexivity.
Qed.
Lemma loop_text_combine {B} (r : list B) tx : length r = length tx -> loop_text (combine r tx) = (r, List.concat tx).
Proof.
  intros H. unfold loop_text. f_equal; [|f_equal]; revert tx H; induction r as [|x r IH]; intros [|t tx] H; try discriminate; try reflexivity; cbn [combine map fst snd]; rewrite IH by (injection H; auto); reflexivity.
Qed.
Lemma concat_snoc {A} (l : list (list A)) x : List.concat (l ++ [x]) = List.concat l ++ x.
Proof. rewrite concat_app. cbn [List.concat]. rewrite app_nil_r. reflexivity. Qed.

(** ** Matchings return valid indices *)
Lemma fold_index {A} (f : Z * option nat -> nat * A -> Z * option nat) (l : list A) s :
  (forall s i c, snd (f s (i, c)) = snd s \/ snd (f s (i, c)) = Some i) -> (forall k, snd s = Some k -> (k < length l)%nat) ->
  forall k, snd (fold_left f (indexed l) s) = Some k -> (k < length l)%nat.
Proof.
  intros HF. assert (G : forall (L : list (nat * A)) s, (forall i c, In (i, c) L -> (i < length l)%nat) -> (forall k, snd s = Some k -> (k < length l)%nat) ->
    forall k, snd (fold_left f L s) = Some k -> (k < length l)%nat).
  { induction L as [|[i c] L IH]; intros s' HL Hs k; cbn [fold_left]; [apply Hs|]. apply IH; [intros; eapply HL; right; eauto|].
    intros k'. destruct (HF s' i c) as [->| ->]; [apply Hs|]. intros [= <-]. eapply HL. left. reflexivity. }
  intros Hs. apply G; [|exact Hs]. intros i c Hi. apply in_indexed in Hi. apply nth_error_Some. rewrite Hi. discriminate.
Qed.
Lemma em_ref_lt had e k : best_match_em_ref DR2MAX_EM_CALO had e = Some k -> (k < length had)%nat.
Proof.
  unfold best_match_em_ref. cbv zeta. apply fold_index; [|discriminate]. intros [m b] i c. destruct (_ <=? _); [left; reflexivity|]. destruct (_ <? _); [right|left]; reflexivity.
Qed.
Lemma mu_ref_lt track m k : mu_ref_best track m = Some k -> (k < length track)%nat.
Proof.
  unfold mu_ref_best. apply fold_index; [|discriminate]. intros [d b] i c. destruct (_ <? _); [|left; reflexivity]. cbv zeta. destruct (_ <? _); [right|left]; reflexivity.
Qed.
Lemma tk_em_lt em tk k : best_match_ref e_pt e_eta e_phi DR2MAX_TK_EM false em tk = Some k -> (k < length em)%nat.
Proof. rewrite best_match_ref_em. intros H. apply best_lt in H. unfold cand_tk_em in H. rewrite map_length in H. exact H. Qed.
Lemma with_pt_lt dr had tk k : best_match_with_pt_ref dr had tk = Ok (Some k) -> (k < length had)%nat.
Proof.
  unfold best_match_with_pt_ref. cbv zeta. match goal with |- context [foldM ?F _ _] => set (f := F) end.
  assert (G : forall (L : list (nat * HadCalo)) s s', (forall i c, In (i, c) L -> (i < length had)%nat) -> (forall k, snd s = Some k -> (k < length had)%nat) ->
    foldM f L s = Ok s' -> forall k, snd s' = Some k -> (k < length had)%nat).
  { induction L as [|[i c] L IH]; intros s s' HL Hs; cbn [foldM]; [intros [= <-]; exact Hs|].
    destruct (f s (i, c)) as [s1|] eqn:E; [|discriminate]. cbn [bind]. apply IH; [intros; eapply HL; right; eauto|].
    assert (HI : (i < length had)%nat) by (eapply HL; left; reflexivity).
    destruct s as [m b]. unfold f in E. destruct (_ <=? _); [injection E as <-; exact Hs|]. destruct (_ >=? _); [injection E as <-; exact Hs|].
    repeat (match type of E with bind ?x _ = _ => destruct x; [|discriminate]; cbn [bind] in E end).
    destruct b as [b|]; [match type of E with (if ?x then _ else _) = _ => destruct x end|]; injection E as <-; first [exact Hs|cbn [snd]; intros k' [= <-]; exact HI]. }
  destruct (foldM f (indexed had) (0, None)) as [s'|] eqn:E; [|discriminate]. cbn [bind]. intros [= H].
  refine (G _ _ _ _ _ E k H); [|discriminate]. intros i c Hi. apply in_indexed in Hi. apply nth_error_Some. rewrite Hi. discriminate.
Qed.
Lemma rd_ok {A} (l : list A) k : (k < length l)%nat -> exists x, nth_error l k = Some x /\ rd l k = Ok x.
Proof. intros H. destruct (nth_error l k) as [x|] eqn:E; [|apply nth_error_None in E; lia]. exists x. unfold rd. rewrite E. auto. Qed.

Section Debug.
Variables (more g : bool).
Notation dbg := (dbg g).

(** ** The muons *)
Definition mu_text (track : list Tk) (im : nat) (mu : Mu) : list ascii :=
  if m_pt mu >? 0 then
    match mu_ref_best track mu with
    | Some k => dbg (fw " muon %3d linked to track %3d " [idx im; idx k])
    | None => dbg (fw " muon %3d not linked to any track" [idx im])
    end
  else [].
Lemma mu_len track mu : forall st st', foldM (mu_ref_step track) mu st = Ok st' -> length (fst st') = (length (fst st) + length mu)%nat.
Proof.
  induction mu as [|m mu IH]; intros st st'; cbn [foldM]; [intros [= <-]; cbn; lia|].
  destruct (mu_ref_step track st m) as [s1|] eqn:E; [|discriminate]. cbn [bind]. intros H. rewrite (IH _ _ H). cbn [length].
  assert (L : length (fst s1) = S (length (fst st))); [|lia]. destruct st as [o i]. unfold mu_ref_step in E. destruct (m_pt m >? 0).
  - destruct (mu_ref_best track m); [destruct (rd track _); [|discriminate]; cbn [bind] in E; destruct (wr i _ true); [|discriminate]; cbn [bind] in E|]; injection E as <-; cbn [fst]; rewrite app_length; cbn; lia.
  - injection E as <-. cbn [fst]. rewrite app_length. cbn. lia.
Qed.
Lemma mu_say track mu i0 : foldM (mu_say_step g track) mu ([], i0, []) =
  do (o, i) <- foldM (mu_ref_step track) mu ([], i0); Ok (o, i, List.concat (mapi (mu_text track) mu)).
Proof.
  induction mu as [|m mu IH] using rev_ind; [reflexivity|]. rewrite !foldM_app, IH. clear IH.
  destruct (foldM (mu_ref_step track) mu ([], i0)) as [[o i]|] eqn:E; [|reflexivity]. apply mu_len in E. cbn [fst length Nat.add] in E.
  cbn [bind foldM]. rewrite mapi_snoc, concat_snoc, <- E. unfold mu_say_step, mu_ref_step, mu_text. destruct (m_pt m >? 0).
  - destruct (mu_ref_best track m) as [k|]; [|reflexivity]. destruct (rd track k); [|reflexivity]. cbn [bind]. destruct (wr i k true); reflexivity.
  - cbn [bind]. rewrite app_nil_r. reflexivity.
Qed.

(** ** The electromagnetic step *)
Definition em_track_text (em : list EmCalo) (it : nat) (p : Tk * bool) : list ascii :=
  let '(tk, mu) := p in
  if (t_pt tk >? 0) && negb mu
  then match best_match_ref e_pt e_eta e_phi DR2MAX_TK_EM false em tk with
       | Some i => match nth_error em i with
                   | Some c => dbg (fw " track  %3d pt %7d matched to em calo %3d pt %7d" [idx it; I (t_pt tk); idx i; I (e_pt c)])
                   | None => []
                   end
       | None => []
       end
  else [].
Lemma em_track_len em l : forall st st', foldM (em_ref_track_step em) l st = Ok st' -> length (fst st') = (length (fst st) + length l)%nat.
Proof.
  induction l as [|[tk mu] l IH]; intros st st'; cbn [foldM]; [intros [= <-]; cbn; lia|].
  destruct (em_ref_track_step em st (tk, mu)) as [s1|] eqn:E; [|discriminate]. cbn [bind]. intros H. rewrite (IH _ _ H). cbn [length].
  assert (L : length (fst s1) = S (length (fst st))); [|lia]. destruct st as [o s]. unfold em_ref_track_step in E. destruct ((t_pt tk >? 0) && negb mu).
  - destruct (best_match_ref _ _ _ _ _ _ _) as [k|]; [destruct (rd s k); [|discriminate]; cbn [bind] in E; destruct (wr s k _); [|discriminate]; cbn [bind] in E|]; injection E as <-; cbn [fst]; rewrite app_length; cbn; lia.
  - injection E as <-. cbn [fst]. rewrite app_length. cbn. lia.
Qed.
Lemma em_track_say em l s0 : foldM (em_say_track_step g em) l ([], s0, []) =
  do (o, s) <- foldM (em_ref_track_step em) l ([], s0); Ok (o, s, List.concat (mapi (em_track_text em) l)).
Proof.
  induction l as [|[tk mu] l IH] using rev_ind; [reflexivity|]. rewrite !foldM_app, IH. clear IH.
  destruct (foldM (em_ref_track_step em) l ([], s0)) as [[o s]|] eqn:E; [|reflexivity]. apply em_track_len in E. cbn [fst length Nat.add] in E.
  cbn [bind foldM]. rewrite mapi_snoc, concat_snoc, <- E. unfold em_say_track_step, em_ref_track_step, em_track_text. destruct ((t_pt tk >? 0) && negb mu).
  - destruct (best_match_ref _ _ _ _ _ _ _) as [k|] eqn:K; [|cbn [bind]; rewrite app_nil_r; reflexivity].
    destruct (rd_ok em k (tk_em_lt _ _ _ K)) as (c & -> & ->). cbn [bind]. destruct (rd s k); [|reflexivity]. cbn [bind]. destruct (wr s k _); reflexivity.
  - cbn [bind]. rewrite app_nil_r. reflexivity.
Qed.

Definition photon_text (ic : nat) (p : EmCalo * Z) : list ascii :=
  let '(c, s) := p in
  if s >? 0 then
    let d := pt_t (e_pt c - s) in let s2 := e_pterr c * e_pterr c in let lo := 4 * s2 in let hi := s2 + Z.shiftr s2 1 in
    if ((d >? 0) && (d * d <=? hi)) || ((d <? 0) && (d * d <? lo))
    then dbg (fw " emcalo %3d pt %7d ptdiff %7d [match window: -%.2f / +%.2f] flagged as electron" [idx ic; I (e_pt c); I d; root lo; root hi])
    else if d >? 0
    then dbg (fw " emcalo %3d pt %7d ptdiff %7d [match window: -%.2f / +%.2f] flagged as electron + photon of pt %7d" [idx ic; I (e_pt c); I d; root lo; root hi; I d])
    else dbg (fw " emcalo %3d pt %7d ptdiff %7d [match window: -%.2f / +%.2f] flagged as pion" [idx ic; I (e_pt c); I d; root lo; root hi])
  else if e_pt c >? 0 then dbg (fw " emcalo %3d pt %7d flagged as photon" [idx ic; I (e_pt c)]) else [].
Lemma photon_say ic c s : em_say_photon g ic (c, s) = do b <- em_ref_photon c s; Ok (b, photon_text ic (c, s)).
Proof.
  unfold em_say_photon, em_ref_photon, photon_text. destruct (s >? 0); [|reflexivity]. cbv zeta.
  destruct (i32 (e_pterr c * e_pterr c)) as [s2|] eqn:E1; [|reflexivity]. cbn [bind]. apply i32_inv in E1 as [E1 _]. subst s2.
  destruct (i32 (4 * _)) as [lo|] eqn:E2; [|reflexivity]. cbn [bind]. apply i32_inv in E2 as [E2 _]. subst lo.
  destruct (i32 (_ + Z.shiftr _ 1)) as [hi|] eqn:E3; [|reflexivity]. cbn [bind]. apply i32_inv in E3 as [E3 _]. subst hi.
  destruct (i32 (pt_t _ * _)) as [dd|] eqn:E4; [|reflexivity]. cbn [bind]. apply i32_inv in E4 as [E4 _]. subst dd.
  destruct (_ || _); [reflexivity|]. destruct (_ >? 0); reflexivity.
Qed.

Definition ele_text (isEM : list bool) (it : nat) (p : Tk * option nat) : list ascii :=
  let '(tk, m) := p in
  match m with
  | Some i => match nth_error isEM i with Some true => dbg (fw " track  %3d pt %7d flagged as electron." [idx it; I (t_pt tk)]) | _ => [] end
  | None => []
  end.
Lemma ele_says_text isEM it tk m : ele_say g isEM it (tk, m) = do b <- (match m with None => Ok false | Some i => rd isEM i end); Ok (b, ele_text isEM it (tk, m)).
Proof.
  unfold ele_say, ele_text. destruct m as [i|]; [|reflexivity]. unfold rd. destruct (nth_error isEM i) as [[|]|]; reflexivity.
Qed.

Definition em_had_text (had : list HadCalo) (ic : nat) (p : EmCalo * bool) : list ascii :=
  let '(c, isem) := p in
  if e_pt c >? 0 then
    let m := best_match_em_ref DR2MAX_EM_CALO had c in
    let h := match m with Some k => nth_error had k | None => None end in
    dbg (fw " emcalo %3d pt %7d isEM %d matched to hadcalo %7d pt %7d emPt %7d isEM %d"
           [idx ic; I (e_pt c); flg isem; I (match m with None => -1 | Some k => Z.of_nat k end);
            I (match h with Some h => h_pt h | None => -1 end); I (match h with Some h => h_empt h | None => -1 end); I (match h with Some h => if h_isem h then 1 else 0 | None => 0 end)])
  else [].
Lemma em_had_say_text had ic c isem : em_had_say g had ic (c, isem) = Ok (best_match_em_ref DR2MAX_EM_CALO had c, em_had_text had ic (c, isem)).
Proof.
  unfold em_had_say, em_had_text, PFDebug.dbg. destruct g; cbn [andb]; [|destruct (_ >? _); reflexivity]. destruct (_ >? _); [|reflexivity].
  destruct (best_match_em_ref _ _ _) as [k|] eqn:K; [|reflexivity]. destruct (rd_ok had k (em_ref_lt _ _ _ K)) as (h & -> & ->). reflexivity.
Qed.

Definition had_sub (emcalo : list EmCalo) (isEM : list bool) (em2calo : list (option nat)) (ih : nat) : Z * bool :=
    fold_left (fun '(sub, keep) '((em, isem), m) =>
                 match m with
                 | Some k => if (k =? ih)%nat
                             then (if (isem : bool) then (pt_t (sub + e_pt em), keep) else (sub, true))
                             else (sub, keep)
                 | None => (sub, keep)
                 end)
              (combine (combine emcalo isEM) em2calo) (0, false).
Definition had_text (emcalo : list EmCalo) (isEM : list bool) (em2calo : list (option nat)) (ih : nat) (h : HadCalo) : list ascii :=
  let '(sub, keep) := had_sub emcalo isEM em2calo ih in
  let emdiff := pt_t (h_empt h - sub) in let alldiff := pt_t (h_pt h - sub) in
  if h_pt h >? 0 then
    dbg (fw " calo   %3d pt %7d has a subtracted pt of %7d, empt %7d -> %7d   isem %d keep %d "
           [idx ih; I (h_pt h); I alldiff; I (h_empt h); I emdiff; flg (h_isem h); flg keep]) ++
    (if alldiff <=? Z.shiftr (h_pt h) 4 then dbg (fw " calo   %3d pt %7d --> discarded (zero pt)" [idx ih; I (h_pt h)])
     else if (h_isem h && (emdiff <=? Z.shiftr (h_empt h) 3)) && negb keep then dbg (fw " calo   %3d pt %7d --> discarded (zero em)" [idx ih; I (h_pt h)])
     else [])
  else [].
Lemma had_say_text em isEM em2calo ih h : had_say g em isEM em2calo ih h = (em_ref_had true em isEM em2calo ih h, had_text em isEM em2calo ih h).
Proof.
  unfold had_say, em_ref_had, had_text. fold (had_sub em isEM em2calo ih). destruct (had_sub em isEM em2calo ih) as [sub keep]. cbv zeta.
  destruct (h_pt h >? 0); destruct (_ <=? Z.shiftr (h_pt h) 4); try reflexivity; destruct (_ && negb keep); rewrite ?app_nil_r; reflexivity.
Qed.

Definition em_text (emcalo : list EmCalo) (hadcalo : list HadCalo) (track : list Tk) (isMu : list bool) (tk2em : list (option nat)) (sumtk : list Z) (isEM : list bool) : list ascii :=
  List.concat (mapi (em_track_text emcalo) (combine track isMu)) ++ dbg (List.concat (mapi em_say_sum (combine emcalo sumtk))) ++
  List.concat (mapi photon_text (combine emcalo sumtk)) ++ List.concat (mapi (ele_text isEM) (combine track tk2em)) ++
  List.concat (mapi (em_had_text hadcalo) (combine emcalo isEM)) ++ List.concat (mapi (had_text emcalo isEM (map (best_match_em_ref DR2MAX_EM_CALO hadcalo) emcalo)) hadcalo).
Lemma em_track_sums em l st st' : foldM (em_ref_track_step em) l st = Ok st' -> length (snd st') = length (snd st).
Proof.
  revert st. induction l as [|[tk mu] l IH]; intros st; cbn [foldM]; [intros [= <-]; reflexivity|].
  destruct (em_ref_track_step em st (tk, mu)) as [s1|] eqn:E; [|discriminate]. cbn [bind]. intros H. rewrite (IH _ H). clear IH H.
  destruct st as [o s]. unfold em_ref_track_step in E. destruct ((t_pt tk >? 0) && negb mu).
  - destruct (best_match_ref _ _ _ _ _ _ _) as [k|]; [destruct (rd s k); [|discriminate]; cbn [bind] in E; destruct (wr s k _) eqn:W; [|discriminate]; cbn [bind] in E|]; injection E as <-; cbn [snd]; [|reflexivity].
    unfold wr in W. destruct (_ <? _)%nat; [|discriminate]. injection W as <-. apply length_upd.
  - injection E as <-. reflexivity.
Qed.
Lemma mapM_ok_map {A B} (f : A -> B) l : mapM (fun x => Ok (f x)) l = Ok (map f l).
Proof. induction l as [|x l IH]; [reflexivity|]. cbn [mapM map bind]. rewrite IH. reflexivity. Qed.
Lemma mapM_ext' {A B} (f f' : A -> res B) l : (forall x, f x = f' x) -> mapM f l = mapM f' l.
Proof. intros H. induction l as [|x l IH]; [reflexivity|]. cbn [mapM]. rewrite H, IH. reflexivity. Qed.
Lemma map_combine_fst {A B C} (f : A -> C) (l : list A) (r : list B) : length r = length l -> map (fun '(x, _) => f x) (combine l r) = map f l.
Proof. revert r. induction l as [|x l IH]; intros [|y r] H; try discriminate; [reflexivity|]. cbn [combine map]. rewrite IH by (injection H; auto). reflexivity. Qed.
Lemma mapM_combine_snd {A B C} (f : B -> res C) (l : list A) (r : list B) : length r = length l -> mapM (fun '(_, y) => f y) (combine l r) = mapM f r.
Proof. revert r. induction l as [|x l IH]; intros [|y r] H; try discriminate; [reflexivity|]. cbn [combine mapM]. rewrite IH by (injection H; auto). reflexivity. Qed.

Lemma em_say_factor em had track isMu old : length isMu = length track ->
  pfalgo3_em_say g em had track isMu old =
  do (tk2em, sumtk) <- foldM (em_ref_track_step em) (combine track isMu) ([], map (fun _ => 0) em);
  do emres <- mapM (fun '(c, s) => em_ref_photon c s) (combine em sumtk);
  do (isEle, outpho, calo) <- pfalgo3_em_ref true em had track isMu old;
  Ok (isEle, outpho, calo, em_text em had track isMu tk2em sumtk (map fst emres)).
Proof.
  intros HL. unfold pfalgo3_em_say, pfalgo3_em_ref. rewrite em_track_say.
  destruct (foldM (em_ref_track_step em) (combine track isMu) ([], map (fun _ => 0) em)) as [[tk2em sumtk]|] eqn:E1; [|reflexivity].
  pose proof (em_track_len _ _ _ _ E1) as L1. pose proof (em_track_sums _ _ _ _ E1) as L2. cbn [fst snd] in L1, L2. rewrite combine_length, HL, Nat.min_id in L1. rewrite map_length in L2. cbn [length Nat.add] in L1.
  cbn [bind]. rewrite (mapM_text _ (fun '(c, s) => em_ref_photon c s) photon_text) by (intros i [c s] _; apply photon_say).
  destruct (mapM (fun '(c, s) => em_ref_photon c s) (combine em sumtk)) as [emres|] eqn:E2; [|reflexivity].
  pose proof (mapM_length _ _ _ E2) as L3. rewrite combine_length, L2, Nat.min_id in L3.
  cbn [bind]. rewrite loop_text_combine by (rewrite length_mapi, combine_length; lia). cbv zeta.
  set (isEM := map fst emres). assert (L4 : length isEM = length em) by (unfold isEM; rewrite map_length; exact L3).
  rewrite (mapM_text _ (fun '(_, m) => match m with None => Ok false | Some i => rd isEM i end) (ele_text isEM)) by (intros i [c s] _; apply ele_says_text).
  rewrite (mapM_combine_snd (fun m => match m with None => Ok false | Some i => rd isEM i end)) by lia.
  destruct (mapM (fun m => match m with None => Ok false | Some i => rd isEM i end) tk2em) as [isEle|] eqn:E3; [|reflexivity].
  pose proof (mapM_length _ _ _ E3) as L5.
  cbn [bind]. rewrite loop_text_combine by (rewrite length_mapi, combine_length; lia).
  rewrite (mapM_text _ (fun '(c, _) => Ok (best_match_em_ref DR2MAX_EM_CALO had c)) (em_had_text had)) by (intros i [c s] _; rewrite em_had_say_text; reflexivity).
  rewrite (mapM_ext' _ (fun x => Ok ((fun '(c, _) => best_match_em_ref DR2MAX_EM_CALO had c) x))) by (intros [? ?]; reflexivity).
  rewrite mapM_ok_map. cbn [bind]. rewrite (map_combine_fst (best_match_em_ref DR2MAX_EM_CALO had)) by exact L4.
  rewrite loop_text_combine by (rewrite length_mapi, combine_length, map_length; lia).
  rewrite (mapi_ext_in (had_say g em isEM _) (fun ih h => (em_ref_had true em isEM (map (best_match_em_ref DR2MAX_EM_CALO had) em) ih h, had_text em isEM (map (best_match_em_ref DR2MAX_EM_CALO had) em) ih h))) by (intros; apply had_say_text).
  unfold loop_text. rewrite !map_mapi. cbn [fst snd]. reflexivity.
Qed.

(** ** The hadronic step *)
Definition had_track_text (calo : list HadCalo) (it : nat) (p : Tk * (bool * bool)) : list ascii :=
  let '(tk, (ele, mu)) := p in
  if (t_pt tk >? 0) && negb ele && negb mu
  then match best_match_with_pt_ref DR2MAX_TK_CALO calo tk with
       | Ok (Some i) => match nth_error calo i with
                        | Some c => dbg (fw " track  %3d pt %7d matched to calo' %3d pt %7d" [idx it; I (t_pt tk); idx i; I (h_pt c)])
                        | None => []
                        end
       | _ => []
       end
  else [].
Lemma had_track_len calo l : forall st st', foldM (had_ref_track_step calo) l st = Ok st' -> length (fst (fst st')) = (length (fst (fst st)) + length l)%nat /\
  length (snd (fst st')) = length (snd (fst st)) /\ length (snd st') = length (snd st).
Proof.
  induction l as [|[tk [ele mu]] l IH]; intros st st'; cbn [foldM]; [intros [= <-]; cbn; lia|].
  destruct (had_ref_track_step calo st (tk, (ele, mu))) as [s1|] eqn:E; [|discriminate]. cbn [bind]. intros H. destruct (IH _ _ H) as (-> & -> & ->). clear IH H. cbn [length].
  assert (L : length (fst (fst s1)) = S (length (fst (fst st))) /\ length (snd (fst s1)) = length (snd (fst st)) /\ length (snd s1) = length (snd st)); [|lia].
  destruct st as [[o s] r]. unfold had_ref_track_step in E. destruct (_ && _ && _).
  - destruct (best_match_with_pt_ref _ _ _) as [[k|]|]; [| |discriminate]; cbn [bind] in E.
    + destruct (rd s k); [|discriminate]; cbn [bind] in E. destruct (wr s k _) eqn:W1; [|discriminate]; cbn [bind] in E. destruct (rd r k); [|discriminate]; cbn [bind] in E.
      destruct (i32 _); [|discriminate]; cbn [bind] in E. destruct (wr r k _) eqn:W2; [|discriminate]; cbn [bind] in E. injection E as <-. cbn [fst snd]. rewrite app_length. cbn [length].
      unfold wr in W1, W2. destruct (_ <? _)%nat in W1; [|discriminate]. destruct (_ <? _)%nat in W2; [|discriminate]. injection W1 as <-. injection W2 as <-. rewrite !length_upd. lia.
    + injection E as <-. cbn [fst snd]. rewrite app_length. cbn. lia.
  - injection E as <-. cbn [fst snd]. rewrite app_length. cbn. lia.
Qed.
Lemma had_track_say calo l s0 r0 : foldM (had_say_track_step g calo) l ([], s0, r0, []) =
  do (o, s, r) <- foldM (had_ref_track_step calo) l ([], s0, r0); Ok (o, s, r, List.concat (mapi (had_track_text calo) l)).
Proof.
  induction l as [|[tk [ele mu]] l IH] using rev_ind; [reflexivity|]. rewrite !foldM_app, IH. clear IH.
  destruct (foldM (had_ref_track_step calo) l ([], s0, r0)) as [[[o s] r]|] eqn:E; [|reflexivity]. apply had_track_len in E as (E & _). cbn [fst length Nat.add] in E.
  cbn [bind foldM]. rewrite mapi_snoc, concat_snoc, <- E. unfold had_say_track_step, had_ref_track_step, had_track_text. destruct (_ && _ && _).
  - destruct (best_match_with_pt_ref _ _ _) as [[k|]|] eqn:K; [| |reflexivity]; cbn [bind]; [|rewrite app_nil_r; reflexivity].
    destruct (rd_ok calo k (with_pt_lt _ _ _ _ K)) as (c & -> & ->). cbn [bind]. destruct (rd s k); [|reflexivity]. cbn [bind]. destruct (wr s k _); [|reflexivity]. cbn [bind].
    destruct (rd r k); [|reflexivity]. cbn [bind]. destruct (i32 _); [|reflexivity]. cbn [bind]. destruct (wr r k _); reflexivity.
  - cbn [bind]. rewrite app_nil_r. reflexivity.
Qed.
Definition subpt_text (ic : nat) (p : HadCalo * (Z * Z)) : list ascii :=
  let '(c, (s, r)) := p in
  let d := pt_t (h_pt c - s) in
  let v := if s >? 0 then (if (d >? 0) && (d * d >? r + Z.shiftr r 1) then d else 0) else h_pt c in
  (if (s >? 0) && ((h_pt c >? 0) && more)
   then dbg (fw " calo'  %3d pt %7d [ %7.2f ] eta %+7d [ %+5.2f ] has a sum track pt %7d, difference %7d +- %.2f "
               [idx ic; I (h_pt c); F (float_pt (h_pt c)); I (h_eta c); F (float_angle (h_eta c)); I s; I d; root r])
   else []) ++
  if h_pt c >? 0 then dbg (fw " calo'  %3d pt %7d ---> %7d " [idx ic; I (h_pt c); I v]) else [].
Lemma subpt_say_text ic c s r : subpt_say more g ic (c, (s, r)) = do v <- had_ref_subpt c s r; Ok (v, subpt_text ic (c, (s, r))).
Proof.
  unfold subpt_say, had_ref_subpt, subpt_text. destruct (s >? 0); cbn [andb].
  - cbv zeta. destruct (i32 _) as [m|] eqn:E; [|reflexivity]. apply i32_inv in E as [E _]. subst m. cbn [bind]. destruct ((_ >? _) && more); reflexivity.
  - reflexivity.
Qed.

(** ** The whole *)
Lemma mu_flags track mu i0 o i : foldM (mu_ref_step track) mu ([], i0) = Ok (o, i) -> length i = length i0.
Proof.
  assert (G : forall mu st st', foldM (mu_ref_step track) mu st = Ok st' -> length (snd st') = length (snd st)).
  { clear. induction mu as [|m mu IH]; intros st st'; cbn [foldM]; [intros [= <-]; reflexivity|].
    destruct (mu_ref_step track st m) as [s1|] eqn:E; [|discriminate]. cbn [bind]. intros H. rewrite (IH _ _ H). destruct st as [o i]. unfold mu_ref_step in E.
    destruct (m_pt m >? 0); [|injection E as <-; reflexivity]. destruct (mu_ref_best track m) as [k|]; [|injection E as <-; reflexivity].
    destruct (rd track k); [|discriminate]; cbn [bind] in E. destruct (wr i k true) eqn:W; [|discriminate]. cbn [bind] in E. injection E as <-. unfold wr in W. destruct (_ <? _)%nat; [|discriminate]. injection W as <-. apply length_upd. }
  intros H. apply G in H. exact H.
Qed.

Lemma say_factor mem nsel em had track mu :
  pfalgo3_full_say more g mem nsel em had track mu =
  do (outmu, isMu) <- foldM (mu_ref_step track) mu ([], map (fun _ => false) track);
  do (tk2em, sumtk) <- foldM (em_ref_track_step em) (combine track isMu) ([], map (fun _ => 0) em);
  do emres <- mapM (fun '(c, s) => em_ref_photon c s) (combine em sumtk);
  do (isEle, outpho, calo) <- pfalgo3_em_ref true em had track isMu (old_outpho mem);
  do (good, sums, errs) <- foldM (had_ref_track_step calo) (combine track (combine isEle isMu)) ([], map (fun _ => 0) had, map (fun _ => 0) had);
  do out <- pfalgo3_full_ref mem nsel em had track mu;
  Ok (out, dbg_inputs more g em had track mu ++ List.concat (mapi (mu_text track) mu) ++ em_text em had track isMu tk2em sumtk (map fst emres) ++
           List.concat (mapi (had_track_text calo) (combine track (combine isEle isMu))) ++ List.concat (mapi subpt_text (combine calo (combine sums errs)))).
Proof.
  unfold pfalgo3_full_say, pfalgo3_full_ref, pfalgo3_full_ref_gen. rewrite mu_say.
  destruct (foldM (mu_ref_step track) mu ([], map (fun _ => false) track)) as [[outmu isMu]|] eqn:E1; [|reflexivity].
  pose proof (mu_flags _ _ _ _ _ E1) as L1. rewrite map_length in L1. cbn [bind]. rewrite em_say_factor by exact L1.
  destruct (foldM (em_ref_track_step em) (combine track isMu) ([], map (fun _ => 0) em)) as [[tk2em sumtk]|] eqn:E2; [|reflexivity]. cbn [bind].
  destruct (mapM (fun '(c, s) => em_ref_photon c s) (combine em sumtk)) as [emres|] eqn:E3; [|reflexivity]. cbn [bind].
  destruct (pfalgo3_em_ref true em had track isMu (old_outpho mem)) as [[[isEle outpho] calo]|] eqn:E4; [|reflexivity]. cbn [bind].
  rewrite had_track_say. destruct (foldM (had_ref_track_step calo) (combine track (combine isEle isMu)) _) as [[[good sums] errs]|] eqn:E5; [|reflexivity]. cbn [bind].
  rewrite (mapM_text _ (fun '(c, (s, e)) => had_ref_subpt c s e) subpt_text) by (intros i [c [s e]] _; apply subpt_say_text).
  destruct (mapM (fun '(c, (s, e)) => had_ref_subpt c s e) (combine calo (combine sums errs))) as [subpt|] eqn:E6; [|reflexivity]. cbn [bind].
  rewrite loop_text_combine by (rewrite length_mapi; apply (mapM_length _ _ _ E6)).
  cbv zeta. destruct (ptsort_ref _ _ _ _); [|reflexivity]. cbn [bind]. rewrite <- ?app_assoc. reflexivity.
Qed.

Lemma say_same mem nsel em had track mu : rmap fst (pfalgo3_full_say more g mem nsel em had track mu) = pfalgo3_full_ref mem nsel em had track mu.
Proof.
  rewrite say_factor. unfold pfalgo3_full_ref, pfalgo3_full_ref_gen.
  destruct (foldM (mu_ref_step track) mu ([], map (fun _ => false) track)) as [[outmu isMu]|] eqn:E1; [|reflexivity]. cbn [bind].
  unfold pfalgo3_em_ref.
  destruct (foldM (em_ref_track_step em) (combine track isMu) ([], map (fun _ => 0) em)) as [[tk2em sumtk]|] eqn:E2; [|reflexivity]. cbn [bind].
  destruct (mapM (fun '(c, s) => em_ref_photon c s) (combine em sumtk)) as [emres|] eqn:E3; [|reflexivity]. cbn [bind]. cbv zeta.
  match goal with |- context [bind (mapM ?f tk2em) _] => destruct (mapM f tk2em) as [isEle|]; [|reflexivity] end. cbn [bind].
  match goal with |- context [bind (foldM (had_ref_track_step ?c) ?l ?s) _] => destruct (foldM (had_ref_track_step c) l s) as [[[good sums] errs]|] eqn:E5; [|reflexivity] end. cbn [bind].
  match goal with |- rmap fst (bind ?x _) = _ => destruct x end; reflexivity.
Qed.
End Debug.

(** without debugging nothing is printed *)
Lemma concat_nils {A B} (f : nat -> A -> list B) l : (forall i x, f i x = []) -> List.concat (mapi f l) = [].
Proof. intros H. unfold mapi. induction (indexed l) as [|[i x] L IH]; [reflexivity|]. cbn [map List.concat fst snd]. rewrite H, IH. reflexivity. Qed.
Lemma say_quiet more mem nsel em had track mu : pfalgo3_full_say more false mem nsel em had track mu = do out <- pfalgo3_full_ref mem nsel em had track mu; Ok (out, []).
Proof.
  pose proof (say_same more false mem nsel em had track mu) as S. rewrite say_factor in *.
  destruct (foldM (mu_ref_step track) mu ([], map (fun _ => false) track)) as [[outmu isMu]|] eqn:E1; cbn [bind] in *; [|rewrite <- S; reflexivity].
  destruct (foldM (em_ref_track_step em) (combine track isMu) ([], map (fun _ => 0) em)) as [[tk2em sumtk]|] eqn:E2; cbn [bind] in *; [|rewrite <- S; reflexivity].
  destruct (mapM (fun '(c, s) => em_ref_photon c s) (combine em sumtk)) as [emres|] eqn:E3; cbn [bind] in *; [|rewrite <- S; reflexivity].
  destruct (pfalgo3_em_ref true em had track isMu (old_outpho mem)) as [[[isEle outpho] calo]|] eqn:E4; cbn [bind] in *; [|rewrite <- S; reflexivity].
  destruct (foldM (had_ref_track_step calo) _ _) as [[[good sums] errs]|] eqn:E5; cbn [bind] in *; [|rewrite <- S; reflexivity].
  destruct (pfalgo3_full_ref mem nsel em had track mu); [|reflexivity]. cbn [bind]. do 2 f_equal.
  unfold dbg_inputs, em_text, dbg. replace (if more then [] else []) with (@nil ascii) by (destruct more; reflexivity). cbn [app].
  rewrite (concat_nils (subpt_text more false)) by (intros i [c [s r]]; unfold subpt_text, dbg; destruct (_ && _), (_ >? _); reflexivity).
  rewrite (concat_nils (had_track_text false calo)) by (intros i [tk [ele m]]; unfold had_track_text, dbg; destruct (_ && _); [|reflexivity]; destruct (best_match_with_pt_ref _ _ _) as [[k|]|]; [destruct (nth_error _ _)| |]; reflexivity).
  rewrite (concat_nils (had_text false _ _ _)) by (intros i h; unfold had_text, dbg; destruct (had_sub _ _ _ _); cbv zeta; destruct (_ >? _); [|reflexivity]; destruct (_ <=? _); [reflexivity|]; destruct (_ && _); reflexivity).
  rewrite (concat_nils (em_had_text false _)) by (intros i [c s]; unfold em_had_text, dbg; destruct (_ >? _); reflexivity).
  rewrite (concat_nils (ele_text false _)) by (intros i [tk [k|]]; unfold ele_text, dbg; [destruct (nth_error _ _) as [[|]|]|]; reflexivity).
  rewrite (concat_nils (photon_text false)) by (intros i [c s]; unfold photon_text, dbg; cbv zeta; destruct (s >? 0); [destruct (_ || _); [reflexivity|]|]; destruct (_ >? _); reflexivity).
  rewrite (concat_nils (em_track_text false _)) by (intros i [tk m]; unfold em_track_text, dbg; destruct (_ && _); [|reflexivity]; destruct (best_match_ref _ _ _ _ _ _ _) as [k|]; [destruct (nth_error _ _)|]; reflexivity).
  rewrite (concat_nils (mu_text false _)) by (intros i m; unfold mu_text, dbg; destruct (_ >? _); [|reflexivity]; destruct (mu_ref_best _ _); reflexivity).
  reflexivity.
Qed.

(** ** Sessions *)
Definition is_run (o : ref_op) : option (res pfout) :=
  match o with Run mem nsel em had track mu => Some (pfalgo3_full_ref mem nsel em had track mu) | SetDebug _ => None end.
Lemma session_same more ops : forall g outs text,
  rmap (fun '(_, o, _) => o) (foldM (ref_op_step more) ops (g, outs, text)) =
  do r <- mapM (fun x => x) (flat_map (fun o => match is_run o with Some x => [x] | None => [] end) ops); Ok (outs ++ r).
Proof.
  induction ops as [|o ops IH]; intros g outs text; cbn [foldM flat_map mapM]; [cbn; rewrite app_nil_r; reflexivity|].
  destruct o as [b|mem nsel em had track mu]; cbn [ref_op_step is_run bind app mapM]; [apply IH|].
  pose proof (say_same more g mem nsel em had track mu) as S. destruct (pfalgo3_full_say more g mem nsel em had track mu) as [[out t]|]; cbn [rmap bind fst] in *; rewrite <- S; [|reflexivity].
  cbn [bind]. rewrite IH. destruct (mapM _ _); [|reflexivity]. cbn [bind]. rewrite <- app_assoc. reflexivity.
Qed.
