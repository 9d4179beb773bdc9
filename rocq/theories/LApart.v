(** The analysis of two texts one after the other. *)
From Coq Require Import List NArith ZArith Bool Lia.
From Verif Require Import MBase MUtf8 MText MTokenizer MDetails MCharFilter MAnalyzer MTokenFilter MConfig
  STok STokenFilter SFrame SLater SLocal SApart LBase LTok LTokenFilter LSafe LFrame LLocal LLater.
Import ListNotations.
Local Open Scope list_scope.

Definition both {A} (r1 r2 : res (list A)) : res (list A) := bind r1 (fun a => bind r2 (fun b => Ok (a ++ b))).

Lemma both_ok {A} (r1 r2 : res (list A)) out : both r1 r2 = Ok out <-> exists a b, r1 = Ok a /\ r2 = Ok b /\ out = a ++ b.
Proof.
  unfold both. split.
  - intros H. apply bind_ok in H. destruct H as (a & -> & H). apply bind_ok in H. destruct H as (b & -> & H). injection H as <-. eauto.
  - intros (a & b & -> & -> & ->). reflexivity.
Qed.

(** ** Filters that look at one token at a time *)

Lemma retain_app {A} (f : A -> res bool) xs ys : retain f (xs ++ ys) = both (retain f xs) (retain f ys).
Proof.
  unfold both. induction xs as [|x xs IH]; cbn [app retain]; [cbn [bind]; destruct (retain f ys); reflexivity|].
  rewrite IH. destruct (f x) as [b|k|]; cbn [bind]; [|reflexivity|reflexivity]. destruct (retain f xs) as [r|k|]; cbn [bind]; [|reflexivity|reflexivity].
  destruct (retain f ys); cbn [bind]; [destruct b; reflexivity|reflexivity|reflexivity].
Qed.

Lemma mapping_app f xs ys : match mapping_tokens f (xs ++ ys) with Some r => r | None => Panic end =
  both (match mapping_tokens f xs with Some r => r | None => Panic end) (match mapping_tokens f ys with Some r => r | None => Panic end).
Proof.
  unfold both. induction xs as [|x xs IH]; cbn [app mapping_tokens]; [cbn [bind]; destruct (mapping_tokens f ys) as [[r|k|]|]; reflexivity|].
  destruct (map_text_loop _ _ _ _) as [[t|k|]|]; [|reflexivity|reflexivity|reflexivity].
  destruct (mapping_tokens f (xs ++ ys)) as [[r|k|]|], (mapping_tokens f xs) as [[r1|k1|]|], (mapping_tokens f ys) as [[r2|k2|]|];
    cbn [bind app] in IH |- *; try discriminate; try congruence; try reflexivity.
Qed.

(** ** Compounds *)

Definition idle (c : compound_config) (tk : ftoken) : Prop := forall tag, token_tag tk = Ok tag -> contains (cc_tags c) tag = false.

Lemma idle_from c tk : ~ takes_up c tk -> idle c tk.
Proof.
  intros N tag E. destruct (contains (cc_tags c) tag) eqn:C; [|reflexivity]. destruct N. unfold takes_up.
  assert (NE : ft_details tk <> []) by (intros D; unfold token_tag in E; rewrite D in E; discriminate E).
  rewrite (token_tag_ok tk NE) in E. injection E as <-. apply contains_in, C.
Qed.

Lemma compound_app_right c ys : (forall y, In y (firstn 1 ys) -> idle c y) ->
  forall xs cur, compound_loop c (xs ++ ys) cur = both (compound_loop c xs cur) (compound_loop c ys None).
Proof.
  intros K. unfold both. induction xs as [|x xs IH]; intros cur; cbn [app].
  - cbn [compound_loop]. destruct ys as [|y r]; cbn [compound_loop bind]; [rewrite app_nil_r; reflexivity|].
    destruct (token_tag y) as [tag|k|] eqn:T; cbn [bind]; [|reflexivity|reflexivity]. rewrite (K y (or_introl eq_refl) tag T).
    destruct (compound_loop c r None); cbn [bind]; [|reflexivity|reflexivity]. destruct cur; reflexivity.
  - cbn [compound_loop]. destruct (token_tag x) as [tag|k|]; cbn [bind]; [|reflexivity|reflexivity]. destruct (contains (cc_tags c) tag).
    + destruct cur as [t|]; [|apply IH]. destruct (concat_token c t x) as [t'|k|]; cbn [bind]; [apply IH|reflexivity|reflexivity].
    + rewrite IH. destruct (compound_loop c xs None); cbn [bind]; [|reflexivity|reflexivity]. destruct (compound_loop c ys None); cbn [bind]; [|reflexivity|reflexivity]. destruct cur; reflexivity.
Qed.

Lemma compound_app_left c xs x ys : idle c x -> forall cur, compound_loop c ((xs ++ [x]) ++ ys) cur = both (compound_loop c (xs ++ [x]) cur) (compound_loop c ys None).
Proof.
  intros K cur. rewrite <- app_assoc. cbn [app]. rewrite !(compound_app_right c) by (cbn; intros y [<-|[]]; exact K).
  cbn [compound_loop]. unfold both. destruct (compound_loop c xs cur) as [a|k|]; cbn [bind]; [|reflexivity|reflexivity].
  destruct (token_tag x) as [tag|k|] eqn:T; cbn [bind]; [|reflexivity|reflexivity]. rewrite (K tag T).
  destruct (compound_loop c ys None); cbn [bind]; [|reflexivity|reflexivity]. rewrite <- app_assoc. reflexivity.
Qed.

Lemma compound_app c xs ys : not_joined c xs ys -> compound_apply c (xs ++ ys) = both (compound_apply c xs) (compound_apply c ys).
Proof.
  unfold compound_apply. intros NJ. destruct (rev xs) as [|x rx] eqn:R.
  - assert (E : xs = []) by (rewrite <- (rev_involutive xs), R; reflexivity). subst xs. unfold both. cbn [app compound_loop bind]. destruct (compound_loop c ys None); reflexivity.
  - assert (E : xs = rev rx ++ [x]) by (rewrite <- (rev_involutive xs), R; reflexivity).
    destruct (in_dec (list_eq_dec N.eq_dec) (join [44%N] (pad4 (pos_of (ft_details x)))) (cc_tags c)) as [I|I].
    + apply compound_app_right. intros y Iy. apply idle_from. intros T. apply (NJ x y); [rewrite R; left; reflexivity|exact Iy|split; assumption].
    + subst xs. apply compound_app_left, idle_from, I.
Qed.

Definition cut_here (d : token_filter_def) (xs ys : list ftoken) : Prop := match d with TFCompound c => not_joined c xs ys | _ => True end.

Theorem filter_app e d xs ys : cut_here d xs ys -> run_token_filter e d (xs ++ ys) = both (run_token_filter e d xs) (run_token_filter e d ys).
Proof.
  intros K. destruct d; cbn [run_token_filter].
  all: try exact (mapM_app _ xs ys). all: try exact (retain_app _ xs ys).
  - apply compound_app, K.
  - apply mapping_app.
Qed.

Theorem chain_app e tds : forall xs ys out, kept_apart e tds xs ys ->
  (foldM (fun ts f => f ts) (map (run_token_filter e) tds) (xs ++ ys) = Ok out <->
   exists a b, foldM (fun ts f => f ts) (map (run_token_filter e) tds) xs = Ok a /\ foldM (fun ts f => f ts) (map (run_token_filter e) tds) ys = Ok b /\ out = a ++ b).
Proof.
  induction tds as [|d tds IH]; intros xs ys out K; cbn [map foldM].
  - split; [intros H; injection H as <-; eauto|]. intros (a & b & H1 & H2 & ->). congruence.
  - cbn [kept_apart] in K. destruct K as [K1 K2]. rewrite (filter_app e d xs ys) by (destruct d; exact K1). unfold both. split.
    + intros H. destruct (run_token_filter e d xs) as [a|k|] eqn:E1; cbn [bind] in H |- *; try discriminate.
      destruct (run_token_filter e d ys) as [b|k|] eqn:E2; cbn [bind] in H |- *; try discriminate. apply IH; [apply K2; assumption || reflexivity|exact H].
    + destruct (run_token_filter e d xs) as [a|k|] eqn:E1; cbn [bind]; [|intros (? & ? & ? & _); discriminate..].
      destruct (run_token_filter e d ys) as [b|k|] eqn:E2; cbn [bind]; [|intros (? & ? & _ & ? & _); discriminate..]. intros H. apply IH; [apply K2; assumption || reflexivity|exact H].
Qed.

(** ** Tokens further on *)

Section Behind.
Context (n : N) (p : nat).
Lemma behind_all ts ts' : moved_all (fun x y => y = n + x)%N (fun x y => y = p + x) ts ts' <-> ts' = map (put_behind n p) ts.
Proof.
  split.
  - intros F. induction F as [|a b ts ts' (H1 & H2 & H3 & H4 & H5 & H6 & H7) F IH]; [reflexivity|]. cbn [map]. f_equal; [|exact IH].
    destruct a, b. unfold put_behind. cbn in *. congruence.
  - intros ->. induction ts as [|a ts IH]; constructor; [|exact IH]. repeat split.
Qed.
Lemma filter_behind e d ts : same_up_to (map (put_behind n p)) (run_token_filter e d ts) (run_token_filter e d (map (put_behind n p) ts)).
Proof.
  pose proof (filter_moved _ _ e d ts _ (proj2 (behind_all ts _) eq_refl)) as A.
  destruct (run_token_filter e d ts) as [a|k|], (run_token_filter e d (map (put_behind n p) ts)) as [b|k'|]; cbn in A; try contradiction; try subst; try constructor.
  apply behind_all in A. subst. constructor.
Qed.
Lemma chain_behind e tds ts : same_up_to (map (put_behind n p)) (foldM (fun ts f => f ts) (map (run_token_filter e) tds) ts)
  (foldM (fun ts f => f ts) (map (run_token_filter e) tds) (map (put_behind n p) ts)).
Proof.
  revert ts. induction tds as [|d tds IH]; intros ts; cbn [map foldM]; [constructor|].
  destruct (filter_behind e d ts) as [a|k|]; cbn [bind]; [apply IH|constructor|constructor].
Qed.
Lemma apart_behind e tds : forall xs ys, kept_apart e tds xs ys -> kept_apart e tds xs (map (put_behind n p) ys).
Proof.
  induction tds as [|d tds IH]; intros xs ys; cbn [kept_apart]; [auto|]. intros [K1 K2]. split.
  - destruct d; auto. intros x y Ix Iy. destruct ys as [|z ys]; [destruct Iy|]. cbn in Iy. destruct Iy as [<-|[]]. intros [T1 T2]. apply (K1 x z Ix (or_introl eq_refl)). split; [exact T1|exact T2].
  - intros xs' ys' R1 R2. pose proof (filter_behind e d ys) as B. rewrite R2 in B. inversion B as [a E1 E2| |]; subst. apply IH, K2; [exact R1|congruence].
Qed.
End Behind.

Theorem filters_behind e tds xs ys out n p : kept_apart e tds xs ys ->
  (foldM (fun ts f => f ts) (map (run_token_filter e) tds) (xs ++ map (put_behind n p) ys) = Ok out <->
   exists a b, foldM (fun ts f => f ts) (map (run_token_filter e) tds) xs = Ok a /\ foldM (fun ts f => f ts) (map (run_token_filter e) tds) ys = Ok b /\ out = a ++ map (put_behind n p) b).
Proof.
  intros K. rewrite (chain_app e tds _ _ _ (apart_behind n p e tds xs ys K)). pose proof (chain_behind n p e tds ys) as B. split.
  - intros (a & b & H1 & H2 & ->). rewrite H2 in B. inversion B as [b' E1 E2| |]; subst. eauto.
  - intros (a & b & H1 & H2 & ->). rewrite H2 in B. inversion B as [b' E1 E2| |]; subst. eauto.
Qed.

(** ** Analysis *)

Lemma plain_vecs ts : mapM (correct_token []) ts = Ok ts.
Proof. induction ts as [|[] ts IH]; cbn; [reflexivity|]. rewrite IH. reflexivity. Qed.
Lemma plain_analyze e t text : analyze (analyzer_of e (AnalyzerDef [] t [])) text =
  match tokenize t text with Some (Ok ts) => Some (mapM (analyzed_token t) ts) | Some (Err k) => Some (Err k) | Some Panic => Some Panic | None => None end.
Proof.
  unfold analyze, analyzer_of. cbn [an_char_filters an_tokenizer ad_char_filters ad_tokenizer ad_token_filters map apply_char_filters].
  destruct (tokenize t text) as [[ts|k|]|]; try reflexivity. f_equal. unfold analyze_normalized. cbn [an_tokenizer an_token_filters map foldM].
  destruct (mapM (analyzed_token t) ts) as [r|k|]; cbn [bind]; [apply plain_vecs|reflexivity|reflexivity].
Qed.

Lemma analyzed_shift t n p ts r : mapM (analyzed_token t) ts = Ok r -> mapM (analyzed_token t) (map (shift_token n p) ts) = Ok (map (put_behind (N.of_nat n) p) r).
Proof.
  revert r. induction ts as [|a ts IH]; intros r M; cbn [map mapM] in M |- *; [injection M as <-; reflexivity|].
  apply bind_ok in M. destruct M as (b & C & M). apply bind_ok in M. destruct M as (r' & M & E). injection E as <-.
  assert (X : analyzed_token t (shift_token n p a) = Ok (put_behind (N.of_nat n) p b)).
  { unfold analyzed_token, shift_token in *. cbn [tk_word tk_text tk_start tk_end tk_position tk_position_length]. apply bind_ok in C. destruct C as ([ds o] & G & C). rewrite G. cbn [bind].
    apply bind_ok in C. destruct C as (x & O & C). rewrite O. cbn [bind]. injection C as <-. unfold put_behind. cbn. rewrite !Nat2N.inj_add. reflexivity. }
  rewrite X. cbn [bind]. rewrite (IH _ M). reflexivity.
Qed.
Lemma analyzed_end t ts r : mapM (analyzed_token t) ts = Ok r -> last_end r = N.of_nat (end_of ts) /\ List.length r = List.length ts.
Proof.
  intros M. apply mapM_ok_inv in M. split; [|clear - M; induction M; cbn; congruence].
  unfold last_end, end_of. apply Forall2_rev in M. destruct M as [|a b l l' H F]; [reflexivity|].
  unfold analyzed_token in H. apply bind_ok in H. destruct H as ([ds o] & G & C). apply bind_ok in C. destruct C as (x & O & C). injection C as <-. reflexivity.
Qed.

Theorem analyze_parts e t u v n tu tv gu gv tds out : tokenize t u = Some (Ok tu) -> tokenize t v = Some (Ok tv) ->
  tokenize t (u ++ v) = Some (Ok (tu ++ map (shift_token n (List.length tu)) tv)) ->
  analyze (analyzer_of e (AnalyzerDef [] t [])) u = Some (Ok gu) -> analyze (analyzer_of e (AnalyzerDef [] t [])) v = Some (Ok gv) -> kept_apart e tds gu gv ->
  (analyze (analyzer_of e (AnalyzerDef [] t tds)) (u ++ v) = Some (Ok out) <->
   exists o1 o2, analyze (analyzer_of e (AnalyzerDef [] t tds)) u = Some (Ok o1) /\ analyze (analyzer_of e (AnalyzerDef [] t tds)) v = Some (Ok o2) /\
     out = o1 ++ map (put_behind (N.of_nat n) (List.length gu)) o2).
Proof.
  intros T1 T2 T A1 A2 K.
  rewrite plain_analyze, T1 in A1. rewrite plain_analyze, T2 in A2. assert (M1 : mapM (analyzed_token t) tu = Ok gu) by congruence. assert (M2 : mapM (analyzed_token t) tv = Ok gv) by congruence.
  destruct (analyzed_end _ _ _ M1) as [_ LN].
  assert (W : forall x, analyze (analyzer_of e (AnalyzerDef [] t tds)) x = later e tds (analyze (analyzer_of e (AnalyzerDef [] t [])) x)) by (intros x; apply (analyze_later e [] t [] tds x)).
  rewrite !W, !plain_analyze, T1, T2, T, mapM_app, M1, (analyzed_shift _ _ _ _ _ M2), M2. cbn [bind later]. rewrite LN.
  pose proof (filters_behind e tds gu gv out (N.of_nat n) (List.length tu) K) as F. split.
  - intros H. assert (H' : foldM (fun ts f => f ts) (map (run_token_filter e) tds) (gu ++ map (put_behind (N.of_nat n) (List.length tu)) gv) = Ok out) by congruence.
    apply F in H'. destruct H' as (x & y & -> & -> & ->). eauto.
  - intros (o1 & o2 & H1 & H2 & ->). f_equal. apply F. exists o1, o2. repeat split; congruence.
Qed.
Theorem analyze_cut e t A a c b g1 g2 tds out : represents t A -> valid_str ((a ++ [c]) ++ b) -> delimiter c ->
  analyze (analyzer_of e (AnalyzerDef [] t [])) (a ++ [c]) = Some (Ok g1) -> analyze (analyzer_of e (AnalyzerDef [] t [])) b = Some (Ok g2) -> kept_apart e tds g1 g2 ->
  (analyze (analyzer_of e (AnalyzerDef [] t tds)) ((a ++ [c]) ++ b) = Some (Ok out) <->
   exists o1 o2, analyze (analyzer_of e (AnalyzerDef [] t tds)) (a ++ [c]) = Some (Ok o1) /\ analyze (analyzer_of e (AnalyzerDef [] t tds)) b = Some (Ok o2) /\
     out = o1 ++ map (put_behind (last_end g1) (List.length g1)) o2).
Proof.
  intros RP V D A1 A2 K. destruct (tokenize_app t A RP a c b V D) as (ts1 & ts2 & T1 & T2 & T).
  assert (E : last_end g1 = N.of_nat (end_of ts1)).
  { rewrite plain_analyze, T1 in A1. apply (analyzed_end t ts1). congruence. }
  rewrite E. exact (analyze_parts e t _ b _ ts1 ts2 g1 g2 tds out T1 T2 T A1 A2 K).
Qed.
Theorem analyze_apart e t A u v gu gv tds out : represents t A -> distinct_entries A -> divides A u v -> leaves A u v 0 ->
  valid_str (u ++ v) -> sentence (u ++ v) -> u <> [] -> v <> [] -> fits_i32 (t_mode t) (u ++ v) ->
  analyze (analyzer_of e (AnalyzerDef [] t [])) u = Some (Ok gu) -> analyze (analyzer_of e (AnalyzerDef [] t [])) v = Some (Ok gv) -> gu <> [] -> gv <> [] -> kept_apart e tds gu gv ->
  (analyze (analyzer_of e (AnalyzerDef [] t tds)) (u ++ v) = Some (Ok out) <->
   exists o1 o2, analyze (analyzer_of e (AnalyzerDef [] t tds)) u = Some (Ok o1) /\ analyze (analyzer_of e (AnalyzerDef [] t tds)) v = Some (Ok o2) /\
     out = o1 ++ map (put_behind (N.of_nat (blen u)) (List.length gu)) o2).
Proof.
  intros R D DV LV V SE NU NV FI A1 A2 N1 N2 K.
  pose proof A1 as B1. pose proof A2 as B2. rewrite plain_analyze in B1, B2.
  destruct (tokenize t u) as [[tu|k|]|] eqn:T1; try discriminate. destruct (tokenize t v) as [[tv|k|]|] eqn:T2; try discriminate.
  destruct (tokenize_total t A R (u ++ v) V) as (ts & T).
  assert (M1 : mapM (analyzed_token t) tu = Ok gu) by congruence. assert (M2 : mapM (analyzed_token t) tv = Ok gv) by congruence.
  assert (NT1 : tu <> []) by (intros ->; injection M1 as <-; congruence). assert (NT2 : tv <> []) by (intros ->; injection M2 as <-; congruence).
  destruct (tokens_apart t A R D u v ts tu tv DV LV V SE NU NV FI T T1 T2) as [_ E]. rewrite (E NT1 NT2) in T.
  exact (analyze_parts e t u v (blen u) tu tv gu gv tds out T1 T2 T A1 A2 K).
Qed.

Lemma apart_plain e tds : Forall (fun d => forall c, d <> TFCompound c) tds -> forall xs ys, kept_apart e tds xs ys.
Proof. induction 1 as [|d tds H F IH]; intros xs ys; cbn [kept_apart]; [exact I|]. split; [destruct d; auto; destruct (H _ eq_refl)|auto]. Qed.
Lemma apart_silent e tds c : Forall (fun d => forall c, d <> TFCompound c) tds -> forall xs x ys, ~ takes_up c x -> kept_apart e (TFCompound c :: tds) (xs ++ [x]) ys.
Proof.
  intros F xs x ys N. cbn [kept_apart]. split; [|intros; apply apart_plain, F]. intros x' y Ix _ [T _]. rewrite rev_app_distr in Ix. cbn in Ix. destruct Ix as [<-|[]]. exact (N T).
Qed.

(** ** Many texts *)

Lemma put_twice n p n' p' tk : put_behind n p (put_behind n' p' tk) = put_behind (n + n') (p + p') tk.
Proof. unfold put_behind. cbn [ft_text ft_start ft_end ft_position ft_position_length ft_word ft_details]. f_equal; lia. Qed.
Lemma laid_behind n p parts : forall n' p', map (put_behind n p) (laid_out n' p' parts) = laid_out (n + n') (p + p') parts.
Proof.
  induction parts as [|[g o] parts IH]; intros n' p'; cbn [laid_out map]; [reflexivity|]. rewrite map_app, map_map, IH, N.add_assoc, Nat.add_assoc. f_equal.
  apply map_ext. intros tk. apply put_twice.
Qed.
Lemma put_nothing ts : map (put_behind 0 0) ts = ts.
Proof. rewrite <- (map_id ts) at 2. apply map_ext. intros []. reflexivity. Qed.

Theorem analyze_document e t A tds z gz : represents t A -> valid_str z -> analyze (analyzer_of e (AnalyzerDef [] t [])) z = Some (Ok gz) ->
  forall texts gs, Forall (fun s => valid_str s /\ exists a c, s = a ++ [c] /\ delimiter c) texts ->
  Forall2 (fun s g => analyze (analyzer_of e (AnalyzerDef [] t [])) s = Some (Ok g) /\ forall ys, kept_apart e tds g ys) texts gs ->
  forall out, analyze (analyzer_of e (AnalyzerDef [] t tds)) (concat texts ++ z) = Some (Ok out) <->
    exists os oz, Forall2 (fun s o => analyze (analyzer_of e (AnalyzerDef [] t tds)) s = Some (Ok o)) texts os /\
      analyze (analyzer_of e (AnalyzerDef [] t tds)) z = Some (Ok oz) /\ out = laid_out 0 0 (combine gs os ++ [(gz, oz)]).
Proof.
  intros RP VZ AZ.
  assert (X : forall texts gs, Forall (fun s => valid_str s /\ exists a c, s = a ++ [c] /\ delimiter c) texts ->
    Forall2 (fun s g => analyze (analyzer_of e (AnalyzerDef [] t [])) s = Some (Ok g) /\ forall ys, kept_apart e tds g ys) texts gs ->
    valid_str (concat texts ++ z) /\ analyze (analyzer_of e (AnalyzerDef [] t [])) (concat texts ++ z) = Some (Ok (laid_out 0 0 (combine gs gs ++ [(gz, gz)])))).
  { intros texts gs D G. induction G as [|s g texts gs [AS _] G IH]; cbn [concat combine app laid_out].
    - split; [exact VZ|]. rewrite app_nil_r, put_nothing. exact AZ.
    - inversion D as [|? ? [VS (a & c & -> & DC)] D']; subst. destruct (IH D') as [V W]. rewrite <- app_assoc. split; [apply Forall_app; split; assumption|].
      apply (proj2 (analyze_cut e t A a c (concat texts ++ z) g _ [] _ RP (proj2 (Forall_app _ _ _) (conj VS V)) DC AS W I)). exists g, (laid_out 0 0 (combine gs gs ++ [(gz, gz)])).
      split; [exact AS|]. split; [exact W|]. rewrite put_nothing, laid_behind, N.add_0_r, Nat.add_0_r. reflexivity. }
  intros texts gs D G. induction G as [|s g texts gs [AS K] G IH]; intros out; cbn [concat app].
  - split.
    + intros H. exists [], out. split; [constructor|]. split; [exact H|]. cbn [combine app laid_out]. rewrite app_nil_r, put_nothing. reflexivity.
    + intros (os & oz & F & H & ->). inversion F; subst. cbn [combine app laid_out]. rewrite app_nil_r, put_nothing. exact H.
  - inversion D as [|? ? [VS (a & c & -> & DC)] D']; subst. destruct (X texts gs D' G) as [V W]. specialize (IH D'). rewrite <- app_assoc.
    rewrite (analyze_cut e t A a c _ g _ tds out RP (proj2 (Forall_app _ _ _) (conj VS V)) DC AS W (K _)). split.
    + intros (o1 & o2 & H1 & H2 & ->). apply IH in H2. destruct H2 as (os & oz & F & HZ & ->). exists (o1 :: os), oz. split; [constructor; assumption|]. split; [exact HZ|].
      cbn [combine app laid_out]. rewrite put_nothing, laid_behind, N.add_0_r, Nat.add_0_r. reflexivity.
    + intros (os & oz & F & HZ & ->). inversion F as [|? o1 ? os' H1 F']; subst. exists o1, (laid_out 0 0 (combine gs os' ++ [(gz, oz)])). split; [exact H1|]. split; [apply IH; exists os', oz; repeat split; assumption|].
      cbn [combine app laid_out]. rewrite put_nothing, laid_behind, N.add_0_r, Nat.add_0_r. reflexivity.
Qed.
