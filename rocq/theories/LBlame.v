(** What goes wrong when a dictionary is built. *)
From Coq Require Import String.
From Coq Require Import List NArith ZArith Bool Lia ZifyBool ZifyNat ZifyN Permutation.
From Verif Require Import MBase MUtf8 MText MCodec MDict MCharDef MUnk MBincode MTokenizer MBuild MConfig MBuilders
  STok SBuild SMatrix SCharDef SUnk SData SBuilders SText SSource SAccept SBlame
  LBase LUtf8 LCodec LBuild LMatrix LSysDict LUserDict LKinds LFirst LCharDef LUnkDef LBuilders LEmbedded LText LSource LAccept.
Import ListNotations.
Local Open Scope list_scope.

(** * Lines *)

Lemma lines_outcome {A B} (f : str -> res B) (says : str -> A -> Prop) blame content :
  (forall l, (exists x, says l x) <-> exists y, f l = Ok y) -> (forall l er, blame l er <-> f l = Err er) -> (forall l, f l <> Panic) ->
  match mapM f (lines content) with
  | Ok _ => forall er, ~ first_line says blame content er
  | Err er => first_line says blame content er
  | Panic => False
  end.
Proof.
  intros HS HB HP.
  assert (G : forall ls, match mapM f ls with
    | Ok _ => Forall (fun l => exists y, f l = Ok y) ls
    | Err er => exists pre line post, ls = pre ++ line :: post /\ Forall (fun l => exists x, says l x) pre /\ blame line er
    | Panic => False
    end).
  { induction ls as [|l ls IH]; cbn [mapM]; [constructor|]. destruct (f l) as [y|er|] eqn:E; cbn [bind].
    - destruct (mapM f ls) as [ys|er|]; cbn [bind]; [constructor; eauto| |exact IH].
      destruct IH as (pre & line & post & -> & F & H). exists (l :: pre), line, post. split; [reflexivity|]. split; [|exact H]. constructor; [apply HS; eauto|exact F].
    - exists [], l, ls. split; [reflexivity|]. split; [constructor|]. apply HB, E.
    - exact (HP l E). }
  specialize (G (lines content)). destruct (mapM f (lines content)) as [ys|er|]; [|destruct G as (pre & line & post & E & F & H)|exact G].
  - intros er (pre & line & post & L & _ & H). apply lines_spec in L. rewrite L in G. rewrite Forall_forall in G.
    destruct (G line) as [y Y]; [apply in_or_app; right; left; reflexivity|]. apply HB in H. congruence.
  - exists pre, line, post. split; [apply lines_spec, E|auto].
Qed.

Lemma hex_error p : (forall c, ~ hex_point p c) <-> parse_hex_codepoint p = Err EParse.
Proof.
  split.
  - intros H. destruct (parse_hex_codepoint p) as [c|k|] eqn:E; [destruct (H c); apply hex_point_spec, E| |]; unfold parse_hex_codepoint in E;
      (destruct (parse_u16_hex _) as [v|]; cbn [ok_or bind] in E; [|congruence]; unfold ucs2_to_unicode in E; destruct (_ || _); [congruence|destruct (_ && _); discriminate]).
  - intros E c H. apply hex_point_spec in H. congruence.
Qed.
Lemma hex_cases p : (exists c, parse_hex_codepoint p = Ok c) \/ parse_hex_codepoint p = Err EParse.
Proof.
  unfold parse_hex_codepoint. destruct (parse_u16_hex _) as [v|]; cbn [ok_or bind]; [|auto]. unfold ucs2_to_unicode. destruct (_ || _); [auto|]. destruct (_ && _); eauto.
Qed.
Lemma u32_error f : (forall n, ~ u32_field f n) <-> parse_u32 f = None.
Proof.
  split.
  - intros H. destruct (parse_u32 f) as [n|] eqn:E; [|reflexivity]. destruct (H n). apply u32_field_spec, E.
  - intros E n H. apply u32_field_spec in H. congruence.
Qed.
Lemma i32_error f : (forall n, ~ i32_field f n) <-> parse_i32 f = None.
Proof.
  split.
  - intros H. destruct (parse_i32 f) as [n|] eqn:E; [|reflexivity]. destruct (H n). apply i32_field_spec, E.
  - intros E n H. apply i32_field_spec in H. congruence.
Qed.

Lemma char_blame_iff line er : char_blame line er <-> line_directive line = Err er.
Proof.
  split.
  - intros H. unfold line_directive. destruct H as [body text x names ps C T P F PC L|body text x names ps C T P F PC L X|body text fs C T N P F L|body text name numbers C T N P F L X];
      apply without_comment_spec in C; rewrite C; apply trim_spec in T; rewrite T.
    + assert (E : is_nil text = false) by (destruct P as (r & ->); reflexivity). rewrite E. apply starts_with_spec in P. rewrite P. unfold range_directive.
      apply split_whitespace_spec in F. rewrite F. unfold range_bounds. apply split_str_spec in PC; [|discriminate]. rewrite PC.
      destruct ps as [|a [|b [|c ps]]]; cbn [List.length] in L; try lia. reflexivity.
    + assert (E : is_nil text = false) by (destruct P as (r & ->); reflexivity). rewrite E. apply starts_with_spec in P. rewrite P. unfold range_directive.
      apply split_whitespace_spec in F. rewrite F. unfold range_bounds. apply split_str_spec in PC; [|discriminate]. rewrite PC.
      destruct ps as [|a [|b [|c ps]]]; cbn [List.length] in L; try lia; [inversion X| |].
      * apply Exists_cons in X. destruct X as [X|X]; [|inversion X]. apply hex_error in X. rewrite X. reflexivity.
      * destruct (hex_cases a) as [[c A]|A]; rewrite A; cbn [bind]; [|reflexivity]. apply Exists_cons in X. destruct X as [X|X]; [apply hex_error in X; congruence|].
        apply Exists_cons in X. destruct X as [X|X]; [|inversion X]. apply hex_error in X. rewrite X. reflexivity.
    + assert (E : is_nil text = false) by (destruct text; [congruence|reflexivity]). rewrite E.
      assert (E' : starts_with (lit "0x") text = false).
      { destruct (starts_with (lit "0x") text) eqn:X; [|reflexivity]. apply starts_with_spec in X. destruct X as (r & X). exfalso. exact (P _ X). }
      rewrite E'. unfold category_directive. apply split_ascii_whitespace_spec in F. rewrite F.
      destruct fs as [|a [|b [|c [|d [|? ?]]]]]; try reflexivity. cbn in L. congruence.
    + assert (E : is_nil text = false) by (destruct text; [congruence|reflexivity]). rewrite E.
      assert (E' : starts_with (lit "0x") text = false).
      { destruct (starts_with (lit "0x") text) eqn:Y; [|reflexivity]. apply starts_with_spec in Y. destruct Y as (r & Y). exfalso. exact (P _ Y). }
      rewrite E'. unfold category_directive. apply split_ascii_whitespace_spec in F. rewrite F.
      destruct numbers as [|f1 [|f2 [|f3 [|? ?]]]]; try discriminate L.
      apply Exists_cons in X. destruct X as [X|X]; [apply u32_error in X; rewrite X; reflexivity|]. destruct (parse_u32 f1); cbn [ok_or bind]; [|reflexivity].
      apply Exists_cons in X. destruct X as [X|X]; [apply u32_error in X; rewrite X; reflexivity|]. destruct (parse_u32 f2); cbn [ok_or bind]; [|reflexivity].
      apply Exists_cons in X. destruct X as [X|X]; [apply u32_error in X; rewrite X; reflexivity|inversion X].
  - unfold line_directive. set (body := hd [] (split_char 35%N line)). assert (C : without_comment line body) by (apply without_comment_spec; reflexivity).
    assert (T : trimmed body (trim body)) by (apply trim_spec; reflexivity). set (text := trim body) in *. clearbody text body.
    destruct (is_nil text) eqn:NT; [discriminate|]. assert (NT' : text <> []) by (intros ->; discriminate).
    destruct (starts_with (lit "0x") text) eqn:P.
    + apply starts_with_spec in P. unfold range_directive. destruct (split_whitespace text) as [|x names] eqn:F; cbn [bind]; [discriminate|]. apply split_whitespace_spec in F.
      unfold range_bounds. assert (PC : pieces_of (lit "..") x (split_str (lit "..") x)) by (apply split_str_spec; [discriminate|reflexivity]).
      destruct (split_str (lit "..") x) as [|y [|z [|w ps]]].
      * inversion PC.
      * destruct (hex_cases y) as [[c Y]|Y]; rewrite Y; cbn [bind]; [discriminate|]. intros H. injection H as <-. eapply blame_point; try eassumption; [cbn; lia|]. left. apply hex_error, Y.
      * destruct (hex_cases y) as [[c Y]|Y]; rewrite Y; cbn [bind].
        -- destruct (hex_cases z) as [[c' Z]|Z]; rewrite Z; cbn [bind]; [discriminate|]. intros H. injection H as <-. eapply blame_point; try eassumption; [cbn; lia|]. right. left. apply hex_error, Z.
        -- intros H. injection H as <-. eapply blame_point; try eassumption; [cbn; lia|]. left. apply hex_error, Y.
      * cbn [bind]. intros H. injection H as <-. eapply blame_pieces; try eassumption. cbn. lia.
    + assert (NP : forall r, text <> lit "0x" ++ r).
      { intros r X. assert (Y : starts_with (lit "0x") text = true) by (apply starts_with_spec; eauto). congruence. }
      assert (F : fields_of ascii_white text (split_ascii_whitespace text)) by (apply split_ascii_whitespace_spec; reflexivity).
      unfold category_directive. destruct (split_ascii_whitespace text) as [|name [|f1 [|f2 [|f3 [|f4 fs]]]]]; cbn [bind];
        try (intros H; injection H as <-; eapply blame_fields; try eassumption; cbn; lia).
      destruct (parse_u32 f1) as [a|] eqn:A; cbn [ok_or bind]; [|intros H; injection H as <-; eapply blame_number; try eassumption; [reflexivity|]; left; apply u32_error, A].
      destruct (parse_u32 f2) as [b|] eqn:B; cbn [ok_or bind]; [|intros H; injection H as <-; eapply blame_number; try eassumption; [reflexivity|]; right; left; apply u32_error, B].
      destruct (parse_u32 f3) as [n|] eqn:D; cbn [ok_or bind]; [discriminate|intros H; injection H as <-; eapply blame_number; try eassumption; [reflexivity|]; right; right; left; apply u32_error, D].
Qed.
Lemma line_no_panic line : line_directive line <> Panic.
Proof.
  unfold line_directive. set (text := trim _). assert (T : trimmed (hd [] (split_char 35%N line)) text) by (apply trim_spec; reflexivity). clearbody text.
  destruct (is_nil text) eqn:NT; [discriminate|]. destruct (starts_with (lit "0x") text) eqn:P.
  - unfold range_directive. destruct (split_whitespace text) as [|x names] eqn:F.
    + exfalso. apply split_whitespace_spec in F. apply starts_with_spec in P. destruct P as (r & ->). inversion F as [s W| |]; subst. apply Forall_inv in W. vm_compute in W. intuition discriminate.
    + unfold range_bounds. destruct (split_str (lit "..") x) as [|y [|z [|w ps]]]; cbn [bind]; try discriminate.
      * destruct (hex_cases y) as [[c Y]|Y]; rewrite Y; discriminate.
      * destruct (hex_cases y) as [[c Y]|Y]; rewrite Y; cbn [bind]; [|discriminate]. destruct (hex_cases z) as [[c' Z]|Z]; rewrite Z; discriminate.
  - unfold category_directive. destruct (split_ascii_whitespace text) as [|name [|f1 [|f2 [|f3 [|f4 fs]]]]]; cbn [bind]; try discriminate.
    destruct (parse_u32 f1); cbn [ok_or bind]; [|discriminate]. destruct (parse_u32 f2); cbn [ok_or bind]; [|discriminate]. destruct (parse_u32 f3); discriminate.
Qed.

Lemma char_outcome t : match char_def_of t with
  | Ok _ => (exists ds, char_file t ds) /\ forall er, ~ first_line line_says char_blame t er
  | Err er => first_line line_says char_blame t er
  | Panic => False
  end.
Proof.
  pose proof (lines_outcome line_directive line_says char_blame t) as O.
  assert (O' : match mapM line_directive (lines t) with Ok _ => forall er, ~ first_line line_says char_blame t er | Err er => first_line line_says char_blame t er | Panic => False end).
  { apply O; [|apply char_blame_iff|apply line_no_panic]. intros l. split; intros (x & H); exists x; apply line_says_spec, H. }
  pose proof (char_def_fails t) as F. unfold directives in F.
  destruct (mapM line_directive (lines t)) as [dss|er|] eqn:E; cbn [bind] in F.
  - assert (D : directives t = Ok (List.concat dss)) by (unfold directives; rewrite E; reflexivity). destruct (char_def_categories _ _ D) as (cd & C & _). rewrite C.
    split; [|exact O']. exists (List.concat dss). apply char_file_spec, D.
  - rewrite F. exact O'.
  - destruct O'.
Qed.

Lemma unk_blame_iff n line er : 4 <= n -> unk_blame n line er <-> parse_dictionary_entry (split_char 44%N line) n = Err er.
Proof.
  intros B. unfold parse_dictionary_entry. split.
  - intros [ps P L|name f1 f2 f3 rest P L X]; apply split_char_spec in P; rewrite P.
    + destruct (Nat.eqb_spec (List.length ps) n); [congruence|reflexivity].
    + destruct (Nat.eqb_spec (List.length (name :: f1 :: f2 :: f3 :: rest)) n) as [_|N]; [|cbn in N; lia]. cbn [negb idx nth_error bind].
      destruct X as [X|[X|X]]; [apply u32_error in X; rewrite X; reflexivity|apply u32_error in X|apply i32_error in X]; rewrite X;
        (destruct (parse_u32 f1); cbn [ok_or bind]; [|reflexivity]); [reflexivity|]. destruct (parse_u32 f2); reflexivity.
  - assert (P : parts_of 44%N line (split_char 44%N line)) by (apply split_char_spec; reflexivity). destruct (Nat.eqb_spec (List.length (split_char 44%N line)) n) as [L|L]; cbn [negb].
    + destruct (split_char 44%N line) as [|name [|f1 [|f2 [|f3 rest]]]]; cbn [List.length] in L; try lia. cbn [idx nth_error bind].
      intros H. assert (Q : er = EParse /\ (parse_u32 f1 = None \/ parse_u32 f2 = None \/ parse_i32 f3 = None)).
      { destruct (parse_u32 f1); cbn [ok_or bind] in H; [|split; [congruence|auto]]. destruct (parse_u32 f2); cbn [ok_or bind] in H; [|split; [congruence|auto]].
        destruct (parse_i32 f3); cbn [ok_or bind] in H; [discriminate|split; [congruence|auto]]. }
      destruct Q as [-> Q]. eapply blame_unk_number; [exact P|lia|]. destruct Q as [Q|[Q|Q]]; [left; apply u32_error, Q|right; left; apply u32_error, Q|right; right; apply i32_error, Q].
    + intros H. injection H as <-. eapply blame_parts; eassumption.
Qed.

Lemma unk_outcome cats t n : 4 <= n -> match parse_unk cats t n with
  | Ok _ => (exists us, unk_file n t us) /\ forall er, ~ first_line (unk_says n) (unk_blame n) t er
  | Err er => first_line (unk_says n) (unk_blame n) t er
  | Panic => False
  end.
Proof.
  intros B. pose proof (parse_unk_accepts cats t n B) as AC.
  pose proof (lines_outcome (fun line => parse_dictionary_entry (split_char 44%N line) n) (unk_says n) (unk_blame n) t) as O.
  assert (O' : match mapM (fun line => parse_dictionary_entry (split_char 44%N line) n) (lines t) with
    | Ok _ => forall er, ~ first_line (unk_says n) (unk_blame n) t er | Err er => first_line (unk_says n) (unk_blame n) t er | Panic => False end).
  { apply O; [|intros l er; apply unk_blame_iff, B|].
    - intros l. split.
      + intros (u & U). apply unk_says_spec in U. eexists. apply (LUnkDef.reads_as_parse _ _ _ U).
      + intros (y & Y). unfold parse_dictionary_entry in Y. destruct (Nat.eqb_spec (List.length (split_char 44%N l)) n) as [L|L]; cbn [negb] in Y; [|discriminate].
        destruct (split_char 44%N l) as [|name [|f1 [|f2 [|f3 rest]]]] eqn:S; cbn [List.length] in L; try lia. cbn [idx nth_error bind] in Y.
        destruct (parse_u32 f1) as [a|] eqn:E1; cbn [ok_or bind] in Y; [|discriminate]. destruct (parse_u32 f2) as [b|] eqn:E2; cbn [ok_or bind] in Y; [|discriminate].
        destruct (parse_i32 f3) as [c|] eqn:E3; cbn [ok_or bind] in Y; [|discriminate]. exists (UnkLine name a b c). apply unk_says_spec. unfold reads_as. rewrite S.
        split; [cbn; lia|]. exists f1, f2, f3, rest. cbn. auto.
    - intros l. unfold parse_dictionary_entry. destruct (Nat.eqb_spec (List.length (split_char 44%N l)) n) as [L|L]; cbn [negb]; [|discriminate].
      destruct (split_char 44%N l) as [|name [|f1 [|f2 [|f3 rest]]]] eqn:S; cbn [List.length] in L; try lia. cbn [idx nth_error bind].
      destruct (parse_u32 f1) as [a|]; cbn [ok_or bind]; [|discriminate]. destruct (parse_u32 f2) as [b|]; cbn [ok_or bind]; [|discriminate]. destruct (parse_i32 f3); discriminate. }
  unfold parse_unk in *. destruct (mapM _ (lines t)) as [es|er|]; cbn [bind] in *; [|exact O'|exact O']. split; [|exact O']. apply AC. eauto.
Qed.

(** * matrix.def *)

Lemma matrix_line_cases l : (exists zs, parse_matrix_line l = Ok zs) \/
  (parse_matrix_line l = Err EParse /\ exists fs, fields_of white l fs /\ Exists (fun f => forall z, ~ i32_field f z) fs).
Proof.
  unfold parse_matrix_line. assert (F : fields_of white l (split_whitespace l)) by (apply split_whitespace_spec; reflexivity).
  assert (G : forall fs, (exists zs, mapM (fun f => ok_or (parse_i32 f) EParse) fs = Ok zs) \/
    (mapM (fun f => ok_or (parse_i32 f) EParse) fs = Err EParse /\ Exists (fun f => forall z, ~ i32_field f z) fs)).
  { clear. induction fs as [|f fs IH]; cbn [mapM]; [left; eauto|]. destruct (parse_i32 f) as [z|] eqn:E; cbn [ok_or bind].
    - destruct IH as [(zs & ->)|(-> & X)]; cbn [bind]; [left; eauto|right; split; [reflexivity|right; exact X]].
    - right. split; [reflexivity|]. left. apply i32_error, E. }
  destruct (G (split_whitespace l)) as [H|(E & X)]; [left; exact H|right]. split; [exact E|]. eauto.
Qed.
Lemma matrix_line_ok l zs fs : parse_matrix_line l = Ok zs -> fields_of white l fs -> ~ Exists (fun f => forall z, ~ i32_field f z) fs.
Proof.
  unfold parse_matrix_line. intros H F X. apply split_whitespace_spec in F. rewrite F in H. apply mapM_ok_inv in H. clear F. induction H as [|f z fs zs E H IH]; [inversion X|].
  inversion X as [? ? X1|? ? X1]; subst; [|exact (IH X1)]. apply i32_error in X1. rewrite X1 in E. discriminate.
Qed.
Lemma matrix_lines_cases ls : (exists zss, mapM parse_matrix_line ls = Ok zss /\ Forall2 numbers_on ls zss) \/
  (mapM parse_matrix_line ls = Err EParse /\ exists l fs, In l ls /\ fields_of white l fs /\ Exists (fun f => forall z, ~ i32_field f z) fs).
Proof.
  induction ls as [|l ls IH]; cbn [mapM]; [left; exists []; split; [reflexivity|constructor]|]. destruct (matrix_line_cases l) as [(zs & E)|(E & fs & F & X)]; rewrite E; cbn [bind].
  - destruct IH as [(zss & -> & G)|(-> & l' & fs & I & F & X)]; cbn [bind].
    + left. exists (zs :: zss). split; [reflexivity|]. constructor; [apply parse_matrix_line_spec, E|exact G].
    + right. split; [reflexivity|]. exists l', fs. split; [right; exact I|auto].
  - right. split; [reflexivity|]. exists l, fs. split; [left; reflexivity|auto].
Qed.
Lemma matrix_fold_cases bsize data : forall costs, (exists costs', foldM (set_matrix_line (Z.to_N (bsize mod 2 ^ 32))) data costs = Ok costs') \/
  (foldM (set_matrix_line (Z.to_N (bsize mod 2 ^ 32))) data costs = Panic /\
   exists zs, In zs data /\ (List.length zs < 3 \/ exists f b c rest, zs = f :: b :: c :: rest /\ (2 + (b + f * bsize) mod 2 ^ 32 >= Z.of_nat (List.length costs))%Z)).
Proof.
  induction data as [|zs data IH]; intros costs; cbn [foldM]; [left; eauto|].
  destruct (set_matrix_line (Z.to_N (bsize mod 2 ^ 32)) costs zs) as [c1|k|] eqn:E; cbn [bind].
  - destruct (IH c1) as [H|(H & zs' & I & X)]; [left; exact H|right]. split; [exact H|]. exists zs'. split; [right; exact I|]. rewrite <- (set_matrix_length _ _ _ _ E). exact X.
  - exfalso. unfold set_matrix_line, field_u32, idx, set_cost in E. destruct (nth_error zs 0), (nth_error zs 1), (nth_error zs 2); cbn [bind] in E; try discriminate.
    match type of E with context [if ?b then _ else _] => destruct b; discriminate end.
  - right. split; [reflexivity|]. exists zs. split; [left; reflexivity|]. destruct zs as [|f [|b [|c rest]]]; [left; cbn; lia|left; cbn; lia|left; cbn; lia|right].
    exists f, b, c, rest. split; [reflexivity|]. destruct (Z_lt_ge_dec (2 + (b + f * bsize) mod 2 ^ 32) (Z.of_nat (List.length costs))) as [L|L]; [|exact L].
    exfalso. assert (X : exists costs', set_matrix_line (Z.to_N (bsize mod 2 ^ 32)) costs (f :: b :: c :: rest) = Ok costs') by (apply set_matrix_ok; exists f, b, c, rest; auto).
    destruct X as (c' & X). congruence.
Qed.

Lemma forall2_in_right {A B} (R : A -> B -> Prop) l l' y : Forall2 R l l' -> In y l' -> exists x, In x l /\ R x y.
Proof. induction 1 as [|a b l l' H F IH]; intros I; [destruct I|]. destruct I as [<-|I]; [exists a; split; [left|]; auto|]. destruct (IH I) as (x & J & K). exists x. split; [right|]; auto. Qed.
Lemma forall2_left {A B} (R : A -> B -> Prop) l l' : Forall2 R l l' -> Forall (fun x => exists y, R x y) l.
Proof. induction 1; constructor; eauto. Qed.
Lemma numbers_once l zs zs' : numbers_on l zs -> numbers_on l zs' -> zs = zs'.
Proof. intros A B. apply parse_matrix_line_spec in A, B. congruence. Qed.

Lemma matrix_outcome content : match build_matrix content with
  | Ok _ => (forall er, ~ matrix_blame content er) /\ ~ matrix_crash content
  | Err er => matrix_blame content er
  | Panic => matrix_crash content
  end.
Proof.
  assert (CELLS : forall fs bs, Z.of_nat (List.length (wrap16 (Z.of_N (Z.to_N (fs mod 2 ^ 32))) :: wrap16 (Z.of_N (Z.to_N (bs mod 2 ^ 32))) ::
      repeat i16_max (N.to_nat (wrap_u 32 (Z.of_N (Z.to_N (fs mod 2 ^ 32)) * Z.of_N (Z.to_N (bs mod 2 ^ 32))))))) = (2 + (fs * bs) mod 2 ^ 32)%Z).
  { intros fs bs. cbn [List.length]. rewrite repeat_length. unfold wrap_u. change (2 ^ Z.of_nat 32)%Z with (2 ^ 32)%Z. rewrite !Z2N.id by (apply Z.mod_pos_bound; lia).
    rewrite <- Z.mul_mod by lia. assert (0 <= (fs * bs) mod 2 ^ 32)%Z by (apply Z.mod_pos_bound; lia). lia. }
  assert (OK : forall bytes, build_matrix content = Ok bytes -> (forall er, ~ matrix_blame content er) /\ ~ matrix_crash content).
  { intros bytes E. assert (AC : accepted_matrix content) by (apply build_matrix_accepts; eauto). destruct AC as (header & data & fsize & bsize & rest & L & H & D). split.
    - intros er X. destruct X as [->|ls line fs L' I F X].
      + apply lines_spec in L. discriminate L.
      + apply lines_spec in L, L'. rewrite L in L'. rewrite <- L' in I.
        assert (P : exists zs, parse_matrix_line line = Ok zs).
        { destruct I as [<-|I]; [eexists; apply parse_matrix_line_spec, H|]. rewrite Forall_forall in D. destruct (D _ I) as (f & b & c & r & N & _). eexists. apply parse_matrix_line_spec, N. }
        destruct P as (zs & P). exact (matrix_line_ok _ _ _ P F X).
    - intros (header' & data' & L' & _ & X). apply lines_spec in L, L'. rewrite L in L'. injection L' as <- <-.
      destruct X as [(zs & N & LZ)|(fs' & bs' & rest' & line & zs & N & I & NL & X)].
      + rewrite (numbers_once _ _ _ N H) in LZ. cbn in LZ. lia.
      + pose proof (numbers_once _ _ _ N H) as E'. injection E' as -> -> _. rewrite Forall_forall in D. destruct (D _ I) as (f & b & c & r & N' & LT).
        pose proof (numbers_once _ _ _ NL N') as ->. destruct X as [X|(f' & b' & c' & r' & X & GE)]; [cbn in X; lia|]. injection X as <- <- <- <-. lia. }
  destruct (build_matrix content) as [bytes|er|] eqn:E; [exact (OK _ eq_refl)| |]; clear OK; unfold build_matrix in E.
  - destruct (matrix_lines_cases (lines content)) as [(zss & M & F)|(M & l & fs & I & F & X)]; rewrite M in E; cbn [bind] in E.
    + destruct zss as [|hz dz].
      * inversion F as [L|]. symmetry in L. apply lines_spec in L. assert (content = []) as -> by (inversion L; reflexivity). injection E as <-. constructor. reflexivity.
      * exfalso. unfold field_u32, idx in E. destruct hz as [|zf [|zb rest]]; cbn [nth_error bind] in E; try discriminate. cbv zeta in E.
        change (wrap_u 32 zf) with (Z.to_N (zf mod 2 ^ 32)) in E. change (wrap_u 32 zb) with (Z.to_N (zb mod 2 ^ 32)) in E.
        match type of E with context [foldM _ dz ?c] => destruct (matrix_fold_cases zb dz c) as [(c' & G)|(G & _)] end; rewrite G in E; discriminate.
    + injection E as <-. eapply blame_matrix_number; [apply lines_spec; reflexivity|exact I|exact F|exact X].
  - destruct (matrix_lines_cases (lines content)) as [(zss & M & F)|(M & l & fs & I & F & X)]; rewrite M in E; cbn [bind] in E; [|discriminate].
    destruct zss as [|hz dz]; [discriminate|]. remember (lines content) as lc eqn:LC. symmetry in LC. apply lines_spec in LC. destruct lc as [|header data]; [inversion F|].
    exists header, data. split; [exact LC|]. split; [exact (forall2_left _ _ _ F)|]. inversion F as [|? ? ? ? F1 F2]; subst.
    unfold field_u32, idx in E. destruct hz as [|zf [|zb rest]]; [left; exists []; split; [exact F1|cbn; lia]|left; exists [zf]; split; [exact F1|cbn; lia]|right]. cbn [nth_error bind] in E. cbv zeta in E.
    change (wrap_u 32 zf) with (Z.to_N (zf mod 2 ^ 32)) in E. change (wrap_u 32 zb) with (Z.to_N (zb mod 2 ^ 32)) in E.
    match type of E with context [foldM _ dz ?c] => destruct (matrix_fold_cases zb dz c) as [(c' & G)|(G & zs & I & X)] end; [rewrite G in E; discriminate|].
    rewrite CELLS in X. destruct (forall2_in_right _ _ _ _ F2 I) as (line & IL & NL). exists zf, zb, rest, line, zs. split; [exact F1|]. split; [exact IL|]. split; [exact NL|].
    destruct X as [X|(f & b & c & r & X & GE)]; [left; exact X|right]. exists f, b, c, r. split; [exact X|lia].
Qed.

(** * CSV files *)

Lemma reader_cases be k dir name : match row_reader be k dir name with
  | Ok rows => csv_file be k dir name rows
  | Err er => (missing be dir name /\ er = EIo) \/
      (exists bytes, e_read (be_env be) (join_path dir name) = Some bytes /\ e_csv (be_env be) (match k with IPADIC => be_transcode be bytes | _ => bytes end) = Err er) \/
      (er = EContent /\ k <> CcCedict /\ exists bytes rows, e_read (be_env be) (join_path dir name) = Some bytes /\
         e_csv (be_env be) (match k with IPADIC => be_transcode be bytes | _ => bytes end) = Ok rows /\ ~ exists n, Forall (fun r : row => List.length r = n) rows)
  | Panic => exists bytes, e_read (be_env be) (join_path dir name) = Some bytes /\ e_csv (be_env be) (match k with IPADIC => be_transcode be bytes | _ => bytes end) = Panic
  end.
Proof.
  destruct (row_reader be k dir name) as [rows|er|] eqn:E; [apply csv_file_ok, E| |]; unfold row_reader, read_file in E;
    (destruct (e_read (be_env be) (join_path dir name)) as [b|] eqn:R; cbn [ok_or bind] in E; [|first [discriminate|injection E as <-; left; split; [exact R|reflexivity]]]); unfold csv_rows in E;
    replace (match kind_encoding k with EucJp => be_transcode be b | Utf8 => b end) with (match k with IPADIC => be_transcode be b | _ => b end) in E by (destruct k; reflexivity).
  - right. destruct (e_csv (be_env be) _) as [rows|er'|] eqn:C; cbn [bind] in E; [right|left; injection E as ->; eauto|discriminate].
    destruct (kind_flexible k || same_lengths rows) eqn:L; [discriminate|]. injection E as <-. apply orb_false_iff in L. destruct L as [L1 L2].
    split; [reflexivity|]. split; [intros ->; discriminate|]. exists b, rows. split; [reflexivity|]. split; [exact C|]. intros X. apply same_lengths_spec in X. congruence.
  - destruct (e_csv (be_env be) _) as [rows|er'|] eqn:C; cbn [bind] in E; [|discriminate|eauto]. destruct (kind_flexible k || same_lengths rows); discriminate.
Qed.

Lemma readers_cases be k dir names : match mapM (row_reader be k dir) names with
  | Ok files => Forall2 (csv_file be k dir) names files
  | Err er => exists pre files name post, names = pre ++ name :: post /\ Forall2 (csv_file be k dir) pre files /\ row_reader be k dir name = Err er
  | Panic => exists name, In name names /\ row_reader be k dir name = Panic
  end.
Proof.
  induction names as [|name names IH]; cbn [mapM]; [constructor|]. destruct (row_reader be k dir name) as [rows|er|] eqn:E; cbn [bind].
  - apply csv_file_ok in E. destruct (mapM (row_reader be k dir) names) as [files|er|]; cbn [bind].
    + constructor; assumption.
    + destruct IH as (pre & files & n & post & -> & F & H). exists (name :: pre), (rows :: files), n, post. split; [reflexivity|]. split; [constructor; assumption|exact H].
    + destruct IH as (n & I & H). exists n. split; [right; exact I|exact H].
  - exists [], [], name, names. split; [reflexivity|]. split; [constructor|exact E].
  - exists name. split; [left; reflexivity|exact E].
Qed.

Lemma csv_outcome be k dir : match system_rows be k dir with
  | Ok rows => all_rows be k dir rows /\ (forall er, ~ csv_blame be k dir er) /\ ~ csv_crash be k dir
  | Err er => csv_blame be k dir er
  | Panic => csv_crash be k dir
  end.
Proof.
  destruct (system_rows be k dir) as [rows|er|] eqn:E.
  - apply system_rows_ok in E. destruct E as (names & files & G & F & ->). split; [exists names, files; auto|].
    assert (IN : forall name, In name names -> exists bytes rows, e_read (be_env be) (join_path dir name) = Some bytes /\
      e_csv (be_env be) (match k with IPADIC => be_transcode be bytes | _ => bytes end) = Ok rows /\ (k = CcCedict \/ exists n, Forall (fun r : row => List.length r = n) rows)).
    { intros name I. apply forall2_left in F. rewrite Forall_forall in F. destruct (F _ I) as (rows & bytes & H). eauto. }
    assert (MID : forall pre name post, be_glob be dir = Ok (pre ++ name :: post) -> In name names) by (intros pre name post H; rewrite G in H; injection H as ->; apply in_or_app; right; left; reflexivity).
    split.
    + intros er X. destruct X as [er H|pre fs name post H _ M|pre fs name post bytes er H _ R C|pre fs name post bytes rows H _ R C K N].
      * congruence.
      * destruct (IN _ (MID _ _ _ H)) as (b & rows & R & _). unfold missing in M. congruence.
      * destruct (IN _ (MID _ _ _ H)) as (b & rows & R' & C' & _). assert (b = bytes) by congruence. subst b. congruence.
      * destruct (IN _ (MID _ _ _ H)) as (b & rows' & R' & C' & L). assert (b = bytes) by congruence. subst b. assert (rows' = rows) by congruence. subst rows'. destruct L; contradiction.
    + intros [H|(names' & name & bytes & H & I & R & C)]; [congruence|]. rewrite G in H. injection H as <-.
      destruct (IN _ I) as (b & rows' & R' & C' & L). assert (b = bytes) by congruence. subst b. congruence.
  - rewrite system_rows_reader in E. destruct (be_glob be dir) as [names|er'|] eqn:G; cbn [bind] in E; [|injection E as ->; constructor; exact G|discriminate].
    pose proof (readers_cases be k dir names) as R. destruct (mapM (row_reader be k dir) names) as [files|er'|]; cbn [bind] in E; [discriminate| |discriminate]. injection E as ->.
    destruct R as (pre & files & name & post & -> & F & H). pose proof (reader_cases be k dir name) as C. rewrite H in C.
    destruct C as [[M ->]|[(bytes & R & C)|(-> & K & bytes & rows & R & C & N)]]; [eapply blame_no_csv|eapply blame_csv|eapply blame_mixed]; eassumption.
  - rewrite system_rows_reader in E. destruct (be_glob be dir) as [names|er'|] eqn:G; cbn [bind] in E; [|discriminate|left; exact G].
    pose proof (readers_cases be k dir names) as R. destruct (mapM (row_reader be k dir) names) as [files|er'|]; cbn [bind] in E; [discriminate|discriminate|].
    destruct R as (name & I & H). pose proof (reader_cases be k dir name) as C. rewrite H in C. destruct C as (bytes & R & C). right. exists names, name, bytes. auto.
Qed.

(** * Rows *)

Lemma sys_words_error o rows : forall st er, foldM (add_sys_words o) rows st = Err er ->
  er = ESerialize /\ Exists (fun r => (u32_max < N.of_nat (List.length (utf8 (join [0%N] (sys_row_details o r)))))%N) rows.
Proof.
  induction rows as [|r rows IH]; intros [w i] er H; [discriminate|]. cbn [foldM] in H. unfold add_sys_words at 1 in H. rewrite sys_details_unify in H.
  match type of H with context [if ?b then _ else _] => destruct b eqn:B end; cbn [bind] in H.
  - injection H as <-. split; [reflexivity|]. left. lia.
  - destruct (IH _ _ H) as [E X]. split; [exact E|right; exact X].
Qed.

Lemma first_fields o rows : (Forall (fun r : row => r <> []) rows) \/ (Exists (fun r : row => r = []) rows /\ build_dict o rows = Panic).
Proof.
  assert (G : forall rs, Forall (fun r : row => r <> []) rs \/ (Exists (fun r : row => r = []) rs /\ mapM (fun r => do s <- field r 0; Ok (sys_key o s, r)) rs = Panic)).
  { induction rs as [|r rs IH]; [left; constructor|]. destruct r as [|s r]; [right; split; [left; reflexivity|reflexivity]|]. destruct IH as [F|[X E]]; [left; constructor; [discriminate|exact F]|].
    right. split; [right; exact X|]. cbn [mapM field idx nth_error bind]. rewrite E. reflexivity. }
  destruct (G rows) as [F|[X E]]; [left; exact F|right]. split; [exact X|]. unfold build_dict. rewrite E. reflexivity.
Qed.

Lemma rows_outcome k rows : match build_dict (source_options k) rows with
  | Ok _ => Forall (accepted_row k) rows /\ (forall er, ~ rows_blame k rows er) /\ ~ rows_crash rows
  | Err er => rows_blame k rows er
  | Panic => rows_crash rows
  end.
Proof.
  destruct (build_dict (source_options k) rows) as [f|er|] eqn:E.
  - assert (A : Forall (accepted_row k) rows) by (apply build_dict_accepts; eauto). split; [exact A|]. rewrite Forall_forall in A. split.
    + intros er [r K I L N|r I SZ _].
      * destruct (A _ I) as (_ & [H|(c & l & rr & H)] & _); [contradiction|]. exact (N _ _ _ H).
      * destruct (A _ I) as (_ & _ & H). lia.
    + intros X. apply Exists_exists in X. destruct X as (r & I & L). destruct (A _ I) as (H & _). lia.
  - destruct (first_fields (source_options k) rows) as [NE|[_ X]]; [|congruence].
    destruct (sys_build_exact (source_options k) rows NE) as (F1 & F2 & _ & _).
    assert (D : Exists (sys_row_bad (source_options k)) rows \/ Forall (fun r => ~ sys_row_bad (source_options k) r) rows).
    { clear. induction rows as [|r rows IH]; [right; constructor|]. destruct (sys_row_bad_dec (source_options k) r); [left; left; assumption|]. destruct IH; [left; right; assumption|right; constructor; assumption]. }
    destruct D as [X|F].
    + destruct (F1 X) as (r & FB). pose proof (F2 _ FB) as H. rewrite E in H. destruct (Nat.ltb_spec (List.length r) 4) as [L|L]; [discriminate|]. injection H as ->.
      destruct FB as ([B|[B1 B2]] & pre & post & -> & _); [lia|]. eapply blame_row_number; [|apply in_or_app; right; left; reflexivity|exact L|].
      * intros ->. discriminate.
      * intros c l rr W. apply word_row_spec in W. congruence.
    + assert (P := sorted_rows_perm (sys_surface (source_options k)) rows).
      unfold build_dict in E. rewrite keyed_rows_ok in E by exact NE. cbn [bind] in E. fold (sorted_rows (sys_surface (source_options k)) rows) in E. cbv zeta in E.
      unfold sys_entry_map in E. fold (sys_step (source_options k)) in E.
      assert (B := Permutation_Forall P F). apply (number_from_forall _ _ 0%N), (sys_fold_ok (source_options k) _ []) in B. destruct B as (m & B). rewrite B in E. cbn [bind] in E.
      destruct (foldM (add_sys_words (source_options k)) _ _) as [[w i]|er'|] eqn:W; cbn [bind] in E; [unfold da_build in E; discriminate| |discriminate]. injection E as ->.
      apply sys_words_error in W. destruct W as [-> W]. apply Exists_exists in W. destruct W as (r & I & SZ). apply (Permutation_in _ (Permutation_sym P)) in I.
      eapply blame_row_size; [exact I| |].
      * pose proof (join_bytes (sys_row_details (source_options k) r)) as J. lia.
      * revert F. apply Forall_impl. intros r' NB. unfold sys_row_bad in NB. split; [lia|]. destruct (sys_numbers r') as [[[c l] rr]|] eqn:SN; [right; exists c, l, rr; apply word_row_spec, SN|left].
        destruct k; try reflexivity; exfalso; apply NB; right; split; reflexivity.
  - destruct (first_fields (source_options k) rows) as [NE|[X _]]; [|eapply Exists_impl; [|exact X]; intros r ->; cbn; lia].
    destruct (sys_build_exact (source_options k) rows NE) as (F1 & F2 & _ & F4).
    assert (D : Exists (sys_row_bad (source_options k)) rows \/ Forall (fun r => ~ sys_row_bad (source_options k) r) rows).
    { clear. induction rows as [|r rows IH]; [right; constructor|]. destruct (sys_row_bad_dec (source_options k) r); [left; left; assumption|]. destruct IH; [left; right; assumption|right; constructor; assumption]. }
    destruct D as [X|F]; [|destruct (F4 F E)]. destruct (F1 X) as (r & FB). pose proof (F2 _ FB) as H. rewrite E in H. destruct (Nat.ltb_spec (List.length r) 4) as [L|L]; [|discriminate].
    destruct FB as (_ & pre & post & -> & _). apply Exists_exists. exists r. split; [apply in_or_app; right; left; reflexivity|exact L].
Qed.

Lemma sys_keys o rows f : build_dict o rows = Ok f -> Forall (fun kv => exists w, In w (map (sys_surface o) rows) /\ fst kv = utf8 w) (f_da f).
Proof.
  intros B. destruct (build_dict_inv _ _ _ B) as (m & HM & E1 & _). rewrite E1. destruct (sys_fold_inv _ _ _ _ HM) as (ps & -> & F).
  apply (keyset_words (fun w => In w (map (sys_surface o) rows))). apply (push_all_keys (fun w => In w (map (sys_surface o) rows))); [|constructor].
  apply Forall_forall. intros p I1. destruct (forall2_in_right _ _ _ _ F I1) as ([i r] & J & G). apply filter_In in J. destruct J as [J _]. apply number_from_in_snd in J. destruct G as (G1 & _). cbn [snd] in *.
  rewrite G1. apply in_map_iff. exists r. split; [reflexivity|]. eapply Permutation_in; [symmetry; apply sorted_rows_perm|exact J].
Qed.
Lemma user_keys o rows d : build_user o rows = Ok d -> Forall (fun kv => exists w, In w (user_words rows) /\ fst kv = utf8 w) (pd_da (u_dict d)).
Proof.
  intros B. destruct (build_user_inv _ _ _ B) as (m & HM & E1 & _). rewrite E1. cbn [pd_da]. destruct (user_fold_inv _ _ _ _ HM) as (ps & -> & F).
  apply (keyset_words (fun w => In w (user_words rows))). apply (push_all_keys (fun w => In w (user_words rows))); [|constructor].
  apply Forall_forall. intros p I1. destruct (forall2_in_right _ _ _ _ F I1) as ([i r] & J & G). apply number_from_in_snd in J. destruct G as (G1 & _). cbn [snd] in *.
  rewrite G1. apply in_map_iff. exists r. split; [reflexivity|]. eapply Permutation_in; [symmetry; apply sorted_rows_perm|exact J].
Qed.

(** * Whole builds *)

Section Whole.
Context (be : build_env) (k : dictionary_kind) (dir : str).
Hypothesis writes : always_writes be.

Lemma text_cases name : (exists t, read_text be (kind_encoding k) (join_path dir (lit name)) = Ok t /\ text_file be k dir name t) \/
  (read_text be (kind_encoding k) (join_path dir (lit name)) = Err EIo /\ missing be dir (lit name)).
Proof.
  destruct (read_text be (kind_encoding k) (join_path dir (lit name))) as [t|er|] eqn:E; [left; exists t; split; [reflexivity|apply text_read_ok, E]| |];
    unfold read_text, read_file in E; destruct (e_read (be_env be) (join_path dir (lit name))) eqn:R; cbn [ok_or bind] in E; try discriminate.
  right. injection E as <-. auto.
Qed.
Lemma text_once name t t' : text_file be k dir name t -> text_file be k dir name t' -> t = t'.
Proof. intros A B. apply text_read_ok in A, B. congruence. Qed.
Lemma text_present name t : text_file be k dir name t -> ~ missing be dir (lit name).
Proof. intros (b & R & _) M. unfold missing in M. congruence. Qed.

Lemma chardef_stage : match build_chardef_file be k dir with
  | Ok _ => char_fine be k dir /\ ~ missing be dir (lit "char.def") /\ (forall t er, text_file be k dir "char.def" t -> ~ first_line line_says char_blame t er)
  | Err er => build_blame be k dir er
  | Panic => False
  end.
Proof.
  unfold build_chardef_file. destruct (text_cases "char.def") as [(t & -> & T)|(-> & M)]; cbn [bind]; [|apply blame_no_char, M]. pose proof (char_outcome t) as O.
  destruct (char_def_of t) as [cd|er|]; cbn [bind]; [|eapply blame_char; eassumption|exact O]. destruct (written_ok be (enc_chardef cd) writes) as (z & ->). cbn [bind].
  destruct O as [(ds & D) N]. split; [exists t, ds; auto|]. split; [exact (text_present _ _ T)|]. intros t' er T'. rewrite (text_once _ _ _ T' T). apply N.
Qed.
Lemma unk_stage cd : char_fine be k dir -> match build_unk_file be k dir cd with
  | Ok _ => unk_fine be k dir /\ ~ missing be dir (lit "unk.def") /\
      (forall t er, text_file be k dir "unk.def" t -> ~ first_line (unk_says (unk_line_fields k)) (unk_blame (unk_line_fields k)) t er)
  | Err er => build_blame be k dir er
  | Panic => False
  end.
Proof.
  intros CF. unfold build_unk_file. destruct (text_cases "unk.def") as [(t & -> & T)|(-> & M)]; cbn [bind]; [|apply blame_no_unk; assumption].
  rewrite LBuilders.kind_fields. assert (B : 4 <= unk_line_fields k) by (destruct k; cbn; lia). pose proof (unk_outcome (categories cd) t _ B) as O.
  destruct (parse_unk (categories cd) t (unk_line_fields k)) as [u|er|]; cbn [bind]; [|eapply blame_unk; eassumption|exact O].
  destruct (written_ok be (enc_unknown u) writes) as (z & ->). destruct O as [(us & U) N]. split; [exists t, us; auto|]. split; [exact (text_present _ _ T)|].
  intros t' er T'. rewrite (text_once _ _ _ T' T). apply N.
Qed.
Lemma dict_stage : char_fine be k dir -> unk_fine be k dir -> match build_dict_files be k dir with
  | Ok _ => rows_fine be k dir /\ (forall er, ~ csv_blame be k dir er) /\ ~ csv_crash be k dir /\
      (forall rows, all_rows be k dir rows -> (forall er, ~ rows_blame k rows er) /\ ~ rows_crash rows)
  | Err er => build_blame be k dir er \/ (er = EIo /\ trie_blame be k dir)
  | Panic => build_crash be k dir
  end.
Proof.
  intros CF UF. unfold build_dict_files. pose proof (csv_outcome be k dir) as O. destruct (system_rows be k dir) as [rows|er|] eqn:SR; cbn [bind];
    [|left; apply blame_files; assumption|apply crash_csv; assumption]. destruct O as (R & NB & NC).
  rewrite kind_options. pose proof (rows_outcome k rows) as O. destruct (build_dict (source_options k) rows) as [f|er|] eqn:BD; cbn [bind];
    [|left; eapply blame_rows; eassumption|eapply crash_rows; eassumption]. destruct O as (A & RB & RC).
  destruct (written_ok be (f_words f) writes) as (z1 & ->), (written_ok be (f_words_idx f) writes) as (z2 & ->). cbn [bind].
  destruct (be_yada be (f_da f)) as [da|] eqn:Y; cbn [ok_or bind].
  - destruct (written_ok be da writes) as (z3 & ->), (written_ok be (f_vals f) writes) as (z4 & ->). cbn [bind]. split; [exists rows; auto|]. split; [exact NB|]. split; [exact NC|].
    intros rows' R'. apply system_rows_ok in R'. assert (rows' = rows) as -> by congruence. auto.
  - right. split; [reflexivity|]. split; [exact CF|]. split; [exact UF|]. exists rows, (f_da f). split; [exact R|]. split; [exact A|]. split; [|exact Y]. exact (sys_keys _ _ _ BD).
Qed.
Lemma matrix_stage : char_fine be k dir -> unk_fine be k dir -> rows_fine be k dir -> match build_matrix_file be k dir with
  | Ok _ => ~ missing be dir (lit "matrix.def") /\ (forall t, text_file be k dir "matrix.def" t -> (forall er, ~ matrix_blame t er) /\ ~ matrix_crash t)
  | Err er => build_blame be k dir er
  | Panic => build_crash be k dir
  end.
Proof.
  intros CF UF RF. unfold build_matrix_file. destruct (text_cases "matrix.def") as [(t & -> & T)|(-> & M)]; cbn [bind]; [|apply blame_no_matrix; assumption].
  pose proof (matrix_outcome t) as O. destruct (build_matrix t) as [m|er|]; cbn [bind]; [|eapply blame_matrix; eassumption|eapply crash_matrix; eassumption].
  destruct (written_ok be m writes) as (z & ->). split; [exact (text_present _ _ T)|]. intros t' T'. rewrite (text_once _ _ _ T' T). exact O.
Qed.

Lemma unwrapped_cases {A} (r : res A) : match r with
  | Ok x => unwrapped k r = Ok x
  | Err er => (reports_errors k /\ unwrapped k r = Err er) \/ (~ reports_errors k /\ unwrapped k r = Panic)
  | Panic => unwrapped k r = Panic
  end.
Proof.
  unfold reports_errors. destruct r, k; cbn; auto 6; right; split; auto; intros [H|[H|H]]; discriminate.
Qed.

Theorem build_outcome : match build_dictionary be k dir with
  | Ok _ => (forall er, ~ build_blame be k dir er) /\ ~ build_crash be k dir
  | Err er => reports_errors k /\ (build_blame be k dir er \/ (er = EIo /\ trie_blame be k dir))
  | Panic => build_crash be k dir \/ (~ reports_errors k /\ ((exists er, build_blame be k dir er) \/ trie_blame be k dir))
  end.
Proof.
  unfold build_dictionary.
  pose proof chardef_stage as C. pose proof (unwrapped_cases (build_chardef_file be k dir)) as UC.
  destruct (build_chardef_file be k dir) as [[cd chardef]|er|]; [rewrite UC; cbn [bind]|destruct UC as [[R ->]|[R ->]]; cbn [bind]; eauto|destruct C].
  destruct C as (CF & C1 & C2).
  pose proof (unk_stage cd CF) as U. pose proof (unwrapped_cases (build_unk_file be k dir cd)) as UU.
  destruct (build_unk_file be k dir cd) as [unk|er|]; [rewrite UU; cbn [bind]|destruct UU as [[R ->]|[R ->]]; cbn [bind]; eauto|destruct U].
  destruct U as (UF & U1 & U2).
  pose proof (dict_stage CF UF) as D. pose proof (unwrapped_cases (build_dict_files be k dir)) as UD.
  destruct (build_dict_files be k dir) as [dict|er|];
    [rewrite UD; cbn [bind]|destruct UD as [[R ->]|[R ->]]; cbn [bind]; [auto|right; split; [exact R|]; destruct D as [D|[_ D]]; eauto]|rewrite UD; left; exact D].
  destruct D as (RF & D1 & D2 & D3).
  pose proof (matrix_stage CF UF RF) as M. pose proof (unwrapped_cases (build_matrix_file be k dir)) as UM.
  destruct (build_matrix_file be k dir) as [matrix|er|]; [rewrite UM; cbn [bind]|destruct UM as [[R ->]|[R ->]]; cbn [bind]; eauto|rewrite UM; left; exact M].
  destruct M as (M1 & M2). split.
  - intros er X. destruct X as [X|t er T X|_ X|t er _ T X|er _ _ X|rows er _ _ T X|_ _ _ X|t er _ _ _ T X].
    + exact (C1 X).
    + exact (C2 _ _ T X).
    + exact (U1 X).
    + exact (U2 _ _ T X).
    + exact (D1 _ X).
    + exact (proj1 (D3 _ T) _ X).
    + exact (M1 X).
    + exact (proj1 (M2 _ T) _ X).
  - intros [_ _ X|rows _ _ T X|t _ _ _ T X].
    + exact (D2 X).
    + exact (proj2 (D3 _ T) X).
    + exact (proj2 (M2 _ T) X).
Qed.
End Whole.

(** * User dictionaries *)

Lemma user_first_fields o rows : (Forall (fun r : row => r <> []) rows) \/ (Exists (fun r : row => r = []) rows /\ build_user o rows = Panic).
Proof.
  assert (G : forall rs, Forall (fun r : row => r <> []) rs \/ (Exists (fun r : row => r = []) rs /\ mapM (fun r => do s <- field r 0; Ok (s, r)) rs = Panic)).
  { induction rs as [|r rs IH]; [left; constructor|]. destruct r as [|s r]; [right; split; [left; reflexivity|reflexivity]|]. destruct IH as [F|[X E]]; [left; constructor; [discriminate|exact F]|].
    right. split; [right; exact X|]. cbn [mapM field idx nth_error bind]. rewrite E. reflexivity. }
  destruct (G rows) as [F|[X E]]; [left; exact F|right]. split; [exact X|]. unfold build_user. rewrite E. reflexivity.
Qed.

Lemma user_rows_outcome k rows : match build_user (kind_user_options k) rows with
  | Ok _ => Forall (accepted_user_row k) rows /\ (forall er, ~ user_rows_blame k rows er) /\ ~ user_rows_crash rows
  | Err er => user_rows_blame k rows er
  | Panic => user_rows_crash rows
  end.
Proof.
  set (o := kind_user_options k). destruct (build_user o rows) as [d|er|] eqn:E.
  - assert (A : Forall (accepted_user_row k) rows) by (apply build_user_accepts; eauto). split; [exact A|]. rewrite Forall_forall in A. split.
    + intros er [r I L N|r I L3 L F]; destruct (A _ I) as ((c & l & rr & H) & H'); [exact (N _ _ _ H)|lia].
    + intros X. apply Exists_exists in X. destruct X as (r & I & L). destruct (A _ I) as ((c & l & rr & H) & _). inversion H; subst; cbn in L; lia.
  - destruct (user_first_fields o rows) as [NE|[_ X]]; [|congruence]. destruct (kind_build_exact k rows NE) as (F1 & F2 & F3 & F4). fold o in F1, F2, F3, F4.
    assert (D : Exists (fun r => user_numbers o r = None) rows \/ Forall (fun r => ~ user_numbers o r = None) rows).
    { clear. induction rows as [|r rows IH]; [right; constructor|]. destruct (user_numbers o r) eqn:U; [|left; left; exact U]. destruct IH; [left; right; assumption|right; constructor; [congruence|assumption]]. }
    destruct D as [X|F].
    + destruct (F1 X) as (r & FB). pose proof (F2 _ FB) as H. rewrite E in H. destruct (Nat.ltb_spec (List.length r) 4) as [L|L]; [discriminate|]. injection H as ->.
      destruct FB as (B & pre & post & -> & _). eapply blame_user_number; [apply in_or_app; right; left; reflexivity|exact L|]. intros c l rr W. apply (user_row_spec k) in W. fold o in W. congruence.
    + assert (D : Exists (fun r => user_row_details o r = None) rows \/ Forall (fun r => user_row_details o r <> None) rows).
      { clear. induction rows as [|r rows IH]; [right; constructor|]. destruct (user_row_details o r) eqn:U; [|left; left; exact U]. destruct IH; [left; right; assumption|right; constructor; [congruence|assumption]]. }
      destruct D as [X|F'].
      * rewrite (F3 F X) in E. injection E as <-. apply Exists_exists in X. destruct X as (r & I & U). eapply blame_user_short; [exact I| | |].
        -- intros L. unfold user_row_details in U. cbn [o kind_user_options uo_simple_fields uo_handler uo_detailed_fields] in U. rewrite L in U. cbn [Nat.eqb] in U.
           destruct r as [|a [|b [|c' [|]]]]; try discriminate L. destruct k; discriminate U.
        -- unfold user_row_details in U. cbn [o kind_user_options uo_simple_fields uo_handler uo_detailed_fields] in U. rewrite LKinds.kind_fields in U.
           destruct (Nat.leb_spec (full_fields k) (List.length r)) as [G|G]; [|exact G]. destruct (Nat.eqb_spec (List.length r) 3) as [L|L]; [|discriminate]. destruct k; cbn in *; lia.
        -- revert F. apply Forall_impl. intros r' NB. destruct (user_numbers o r') as [[[c l] rr]|] eqn:SN; [|congruence]. exists c, l, rr. apply (user_row_spec k), SN.
      * exfalso. destruct F4 as (d & X); [|congruence]. rewrite Forall_forall in *. intros r I. split; [exact (F _ I)|exact (F' _ I)].
  - destruct (user_first_fields o rows) as [NE|[X _]]; [|eapply Exists_impl; [|exact X]; intros r ->; cbn; lia].
    destruct (kind_build_exact k rows NE) as (F1 & F2 & F3 & F4). fold o in F1, F2, F3, F4.
    assert (D : Exists (fun r => user_numbers o r = None) rows \/ Forall (fun r => ~ user_numbers o r = None) rows).
    { clear. induction rows as [|r rows IH]; [right; constructor|]. destruct (user_numbers o r) eqn:U; [|left; left; exact U]. destruct IH; [left; right; assumption|right; constructor; [congruence|assumption]]. }
    destruct D as [X|F].
    + destruct (F1 X) as (r & FB). pose proof (F2 _ FB) as H. rewrite E in H. destruct (Nat.ltb_spec (List.length r) 4) as [L|L]; [|discriminate].
      destruct FB as (B & pre & post & -> & _). apply Exists_exists. exists r. split; [apply in_or_app; right; left; reflexivity|].
      unfold user_numbers in B. cbn [o kind_user_options uo_simple_fields] in B. destruct (Nat.eqb_spec (List.length r) 3); [discriminate|]. lia.
    + exfalso. assert (D : Exists (fun r => user_row_details o r = None) rows \/ Forall (fun r => user_row_details o r <> None) rows).
      { clear. induction rows as [|r rows IH]; [right; constructor|]. destruct (user_row_details o r) eqn:U; [|left; left; exact U]. destruct IH; [left; right; assumption|right; constructor; [congruence|assumption]]. }
      destruct D as [X|F']; [rewrite (F3 F X) in E; discriminate|]. destruct F4 as (d & X); [|congruence]. rewrite Forall_forall in *. intros r I. split; [exact (F _ I)|exact (F' _ I)].
Qed.

Theorem user_file_outcome be k path : match build_user_file be k path with
  | Ok _ => (forall er, ~ user_blame (be_env be) k path er) /\ ~ user_crash (be_env be) k path
  | Err er => user_blame (be_env be) k path er \/ (er = EIo /\ user_trie_blame be k path)
  | Panic => user_crash (be_env be) k path
  end.
Proof.
  unfold build_user_file, build_user_dict, read_file. destruct (e_read (be_env be) path) as [bytes|] eqn:R; cbn [ok_or bind]; [|left; apply blame_user_missing, R].
  destruct (e_csv (be_env be) bytes) as [rows|er|] eqn:C; unfold csv_rows; rewrite C; cbn [bind]; [|left; eapply blame_user_csv; eassumption|left; eauto].
  destruct (kind_user_flexible k || same_lengths rows) eqn:L; cbn [bind].
  - assert (U : user_csv (be_env be) k path rows).
    { exists bytes. split; [exact R|]. split; [exact C|]. apply orb_true_iff in L. destruct L as [L|L]; [destruct k; try discriminate; auto|]. apply same_lengths_spec in L. auto. }
    pose proof (user_rows_outcome k rows) as O. destruct (build_user (kind_user_options k) rows) as [d|er|] eqn:B; cbn [bind];
      [|left; eapply blame_user_rows; eassumption|right; eauto]. destruct O as (A & RB & RC).
    destruct (be_yada be (pd_da (u_dict d))) as [da|] eqn:Y; cbn [ok_or bind].
    + split.
      * intros er [X|b er' X Y'|b rows' X C' K1 K2 N|rows' er' (b & X & C' & L') Y'].
        -- congruence.
        -- assert (b = bytes) by congruence. subst b. congruence.
        -- assert (b = bytes) by congruence. subst b. assert (rows' = rows) by congruence. subst rows'. destruct U as (_ & _ & _ & [H|[H|H]]); contradiction.
        -- assert (b = bytes) by congruence. subst b. assert (rows' = rows) by congruence. subst rows'. exact (RB _ Y').
      * intros [(b & X & Y')|(rows' & (b & X & C' & L') & Y')].
        -- assert (b = bytes) by congruence. subst b. congruence.
        -- assert (b = bytes) by congruence. subst b. assert (rows' = rows) by congruence. subst rows'. exact (RC Y').
    + right. split; [reflexivity|]. exists rows, (pd_da (u_dict d)). split; [exact U|]. split; [exact A|]. split; [exact (user_keys _ _ _ B)|exact Y].
  - left. apply orb_false_iff in L. destruct L as [L1 L2]. eapply blame_user_mixed; [exact R|exact C|intros ->; discriminate|intros ->; discriminate|].
    intros X. apply same_lengths_spec in X. congruence.
Qed.

Lemma kind_rows_outcome k rows : match build_dict (kind_dict_options k) rows with
  | Ok _ => Forall (accepted_row k) rows /\ (forall er, ~ rows_blame k rows er) /\ ~ rows_crash rows
  | Err er => rows_blame k rows er
  | Panic => rows_crash rows
  end.
Proof. rewrite kind_options. apply rows_outcome. Qed.
