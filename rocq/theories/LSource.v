(** The source files: formats, and writing them. *)
From Coq Require Import String.
From Coq Require Import List NArith ZArith Bool Lia ZifyBool ZifyNat ZifyN.
From Verif Require Import MBase MUtf8 MText MCodec MDict MCharDef MUnk MLattice MBuild STok SText SMatrix SUnk SCharDef SSource LBase LText LMatrix LCharDef LUnkDef.
Import ListNotations.
Local Open Scope list_scope.

(** * The formats are those that the parsers read *)

Lemma u32_field_spec f n : u32_field f n <-> parse_u32 f = Some n.
Proof. symmetry. apply parse_u32_spec. Qed.
Lemma i32_field_spec f z : i32_field f z <-> parse_i32 f = Some z.
Proof. symmetry. apply parse_i32_spec. Qed.

Lemma numbers_on_spec line zs : numbers_on line zs <-> line_numbers line zs.
Proof.
  unfold numbers_on, line_numbers. split.
  - intros (fs & F & N). apply split_whitespace_spec in F. rewrite F. revert N. apply Forall2_mono. intros f z. apply i32_field_spec.
  - intros N. eexists. split; [apply split_whitespace_spec; reflexivity|]. revert N. apply Forall2_mono. intros f z. apply i32_field_spec.
Qed.
Theorem matrix_file_spec content fsize bsize entries : matrix_file content fsize bsize entries <-> matrix_def content fsize bsize entries.
Proof.
  unfold matrix_file, matrix_def. split; intros (header & data & L & (rest & H) & F); exists header, data; (split; [apply lines_spec; exact L|]);
    (split; [exists rest; apply numbers_on_spec; exact H|]); revert F; apply Forall2_mono; intros line [[f b] c] (r & N); exists r; apply numbers_on_spec; exact N.
Qed.

Lemma unk_says_spec n line u : unk_says n line u <-> reads_as n line u.
Proof.
  unfold unk_says, reads_as. split.
  - intros (f1 & f2 & f3 & rest & P & L & A & B & C). apply split_char_spec in P. rewrite P. split; [cbn; lia|]. exists f1, f2, f3, rest.
    split; [reflexivity|]. repeat split; [apply u32_field_spec, A|apply u32_field_spec, B|apply i32_field_spec, C].
  - intros (L & f1 & f2 & f3 & rest & P & A & B & C). exists f1, f2, f3, rest. split; [apply split_char_spec, P|]. rewrite P in L. cbn in L. split; [lia|].
    repeat split; apply u32_field_spec in A; apply u32_field_spec in B; apply i32_field_spec in C; try apply A; try apply B; apply C.
Qed.
Theorem unk_file_spec n content us : unk_file n content us <-> Forall2 (reads_as n) (lines content) us.
Proof.
  unfold unk_file. split.
  - intros (ls & L & F). apply lines_spec in L. rewrite L. revert F. apply Forall2_mono. intros l u. apply unk_says_spec.
  - intros F. eexists. split; [apply lines_spec; reflexivity|]. revert F. apply Forall2_mono. intros l u. apply unk_says_spec.
Qed.

Lemma hex_point_spec s c : hex_point s c <-> parse_hex_codepoint s = Ok c.
Proof.
  unfold hex_point, parse_hex_codepoint. split.
  - intros (r & v & S & U & B & N1 & N2 & C). apply trim_start_matches_spec in S; [|discriminate]. rewrite S.
    rewrite (proj2 (parse_hex_spec r v) (conj U B)). cbn [ok_or bind]. unfold ucs2_to_unicode.
    destruct (N.eqb_spec v 0xFEFF); [congruence|]. destruct (N.eqb_spec v 0xFFFE); [congruence|]. cbn [orb].
    destruct (N.leb_spec 0xD800 v), (N.leb_spec v 0xDFFF); cbn [andb]; destruct C as [[? ->]|[? ->]]; try reflexivity; exfalso; lia.
  - destruct (parse_u16_hex (trim_start_matches (lit "0x") s)) as [v|] eqn:E; cbn [ok_or bind]; [|discriminate]. apply parse_hex_spec in E. destruct E as [U B].
    unfold ucs2_to_unicode. destruct (N.eqb_spec v 0xFEFF); [discriminate|]. destruct (N.eqb_spec v 0xFFFE); [discriminate|]. cbn [orb]. intros H.
    exists (trim_start_matches (lit "0x") s), v. split; [apply trim_start_matches_spec; [discriminate|reflexivity]|]. repeat (split; [assumption|]).
    destruct (N.leb_spec 0xD800 v), (N.leb_spec v 0xDFFF); cbn [andb] in H; injection H as <-; try (left; split; [lia|reflexivity]); right; (split; [lia|reflexivity]).
Qed.

Lemma without_comment_spec line body : without_comment line body <-> hd [] (split_char 35%N line) = body.
Proof.
  unfold without_comment. split.
  - intros [N [->|(rest & ->)]].
    + rewrite (proj2 (split_char_spec 35%N body [body])); [reflexivity|constructor; exact N].
    + destruct (split_char 35%N rest) as [|p ps] eqn:E; [apply split_char_spec in E; inversion E|].
      rewrite (proj2 (split_char_spec 35%N (body ++ 35%N :: rest) (body :: p :: ps))); [reflexivity|]. constructor; [exact N|]. apply split_char_spec. exact E.
  - intros <-. destruct (split_char 35%N line) as [|p ps] eqn:E; apply split_char_spec in E; inversion E; subst; cbn [hd]; eauto.
Qed.

Lemma trimmed_white body : Forall white body <-> trimmed body [].
Proof.
  split.
  - intros W. exists body, []. split; [rewrite app_nil_r; reflexivity|]. repeat split; try constructor; try exact W; [intros c r E; discriminate|]. intros r c E. destruct r; discriminate.
  - intros (a & b & -> & A & B & _). cbn [app]. apply Forall_app. auto.
Qed.

Lemma one_spec n b : one n b <-> b = (n =? 1)%N.
Proof.
  unfold one. split.
  - intros H. destruct b; symmetry; [apply N.eqb_eq, H; reflexivity|]. apply N.eqb_neq. intros E. apply H in E. discriminate.
  - intros ->. apply N.eqb_eq.
Qed.

Lemma line_says_spec line ds : line_says line ds <-> line_directive line = Ok ds.
Proof.
  split.
  - intros [l body C W|l body text x names c C T P F PC H|l body text x y z names lo hi C T P F PC H1 H2|l body text name f1 f2 f3 a b n invoke group C T N P F A B D O1 O2];
      unfold line_directive; apply without_comment_spec in C; rewrite C.
    + apply trimmed_white, trim_spec in W. rewrite W. reflexivity.
    + apply trim_spec in T. rewrite T. assert (E : is_nil text = false) by (destruct P as (r & ->); reflexivity). rewrite E.
      apply starts_with_spec in P. rewrite P. unfold range_directive. apply split_whitespace_spec in F. rewrite F. unfold range_bounds.
      apply split_str_spec in PC; [|discriminate]. rewrite PC. apply hex_point_spec in H. rewrite H. reflexivity.
    + apply trim_spec in T. rewrite T. assert (E : is_nil text = false) by (destruct P as (r & ->); reflexivity). rewrite E.
      apply starts_with_spec in P. rewrite P. unfold range_directive. apply split_whitespace_spec in F. rewrite F. unfold range_bounds.
      apply split_str_spec in PC; [|discriminate]. rewrite PC. apply hex_point_spec in H1. apply hex_point_spec in H2. rewrite H1. cbn [bind]. rewrite H2. reflexivity.
    + apply trim_spec in T. rewrite T. assert (E : is_nil text = false) by (destruct text; [congruence|reflexivity]). rewrite E.
      assert (E' : starts_with (lit "0x") text = false).
      { destruct (starts_with (lit "0x") text) eqn:X; [|reflexivity]. apply starts_with_spec in X. destruct X as (r & X). exfalso. exact (P _ X). }
      rewrite E'. unfold category_directive. apply split_ascii_whitespace_spec in F. rewrite F.
      apply u32_field_spec in A. apply u32_field_spec in B. apply u32_field_spec in D. rewrite A, B, D. cbn [ok_or bind].
      apply one_spec in O1. apply one_spec in O2. subst. reflexivity.
  - unfold line_directive. set (body := hd [] (split_char 35%N line)). assert (C : without_comment line body) by (apply without_comment_spec; reflexivity).
    assert (T : trimmed body (trim body)) by (apply trim_spec; reflexivity). set (text := trim body) in *. clearbody text body.
    destruct text as [|c0 text]; cbn [is_nil].
    + intros H. injection H as <-. eapply says_nothing; [exact C|apply trimmed_white; exact T].
    + destruct (starts_with (lit "0x") (c0 :: text)) eqn:P.
      * apply starts_with_spec in P. unfold range_directive. destruct (split_whitespace (c0 :: text)) as [|x names] eqn:F; cbn [bind]; [discriminate|].
        apply split_whitespace_spec in F. unfold range_bounds. destruct (split_str (lit "..") x) as [|y [|z [|? ?]]] eqn:PC; cbn [bind]; try discriminate.
        -- destruct (parse_hex_codepoint y) as [c| |] eqn:H; cbn [bind]; try discriminate. intros X. injection X as <-. apply split_str_spec in PC; [|discriminate].
           assert (y = x) by (inversion PC; subst; [reflexivity|match goal with H : pieces_of _ _ [] |- _ => inversion H end]). subst y.
           eapply says_point; try eassumption. apply hex_point_spec. exact H.
        -- destruct (parse_hex_codepoint y) as [lo| |] eqn:H1; cbn [bind]; try discriminate.
           destruct (parse_hex_codepoint z) as [hi| |] eqn:H2; cbn [bind]; try discriminate. intros X. injection X as <-. apply split_str_spec in PC; [|discriminate].
           eapply says_range; try eassumption; apply hex_point_spec; assumption.
      * unfold category_directive. destruct (split_ascii_whitespace (c0 :: text)) as [|name [|f1 [|f2 [|f3 [|? ?]]]]] eqn:F; cbn [bind]; try discriminate.
        apply split_ascii_whitespace_spec in F.
        destruct (parse_u32 f1) as [a|] eqn:A; cbn [ok_or bind]; [|discriminate]. destruct (parse_u32 f2) as [b|] eqn:B; cbn [ok_or bind]; [|discriminate].
        destruct (parse_u32 f3) as [n|] eqn:D; cbn [ok_or bind]; [|discriminate]. intros X. injection X as <-.
        eapply says_category with (a := a) (b := b); try eassumption; try (apply u32_field_spec; assumption); try (apply one_spec; reflexivity); [discriminate|].
        intros r X. assert (Y : starts_with (lit "0x") (c0 :: text) = true) by (apply starts_with_spec; eauto). congruence.
Qed.

Theorem char_file_spec content ds : char_file content ds <-> directives content = Ok ds.
Proof.
  assert (K : forall ls dss, mapM line_directive ls = Ok dss <-> Forall2 line_says ls dss).
  { induction ls as [|l ls IH]; intros dss; cbn [mapM]; [split; [intros H; injection H as <-; constructor|intros H; inversion H; reflexivity]|]. split.
    - intros H. apply bind_ok in H. destruct H as (d & D & H). apply bind_ok in H. destruct H as (r & R & H). injection H as <-. constructor; [apply line_says_spec, D|apply IH, R].
    - intros H. inversion H as [|? d ? r D R]; subst. apply line_says_spec in D. rewrite D. cbn [bind]. apply IH in R. rewrite R. reflexivity. }
  unfold char_file, directives. split.
  - intros (ls & dss & L & F & ->). apply lines_spec in L. rewrite L. apply K in F. rewrite F. reflexivity.
  - intros H. apply bind_ok in H. destruct H as (dss & D & H). injection H as <-. exists (lines content), dss. split; [apply lines_spec; reflexivity|]. split; [apply K, D|reflexivity].
Qed.

(** * Writing *)

Definition digit_below (radix : Z) (c : char) : Prop := exists d, digit_is c d /\ (d < radix)%Z.

Lemma digits_below radix s v : digits radix s v -> Forall (digit_below radix) s.
Proof. induction 1 as [c d D R|s v c d DS IH D R]; [repeat constructor; exists d; auto|]. apply Forall_app. split; [exact IH|]. repeat constructor. exists d. auto. Qed.

Lemma digit_exists d : (0 <= d <= 35)%Z -> exists c, digit_is c d.
Proof.
  intros R. destruct (Z_le_gt_dec d 9).
  - exists (Z.to_N (48 + d)). left. split; [lia|]. rewrite Z2N.id; lia.
  - exists (Z.to_N (87 + d)). right. split; [lia|]. left. rewrite Z2N.id; lia.
Qed.
Lemma digits_exist radix z : (2 <= radix <= 36)%Z -> (0 <= z)%Z -> exists s, digits radix s z.
Proof.
  intros R P. assert (Q := P). revert Q. pattern z. apply Z_lt_induction; [|exact P]. clear z P. intros z IH P.
  destruct (Z_lt_ge_dec z radix) as [L|G].
  - destruct (digit_exists z) as (c & C); [lia|]. exists [c]. constructor; assumption.
  - assert (M : (0 <= z mod radix < radix)%Z) by (apply Z.mod_pos_bound; lia). assert (E := Z_div_mod_eq_full z radix).
    assert (Q : (0 <= z / radix < z)%Z) by (split; [apply Z.div_pos; lia|apply Z.div_lt; lia]).
    destruct (IH (z / radix)%Z) as (s & S); [lia|lia|]. destruct (digit_exists (z mod radix)) as (c & C); [lia|]. exists (s ++ [c]).
    rewrite E, Z.mul_comm. constructor; [exact S|exact C|lia].
Qed.

(* characters of numbers *)
Definition figure (c : char) : Prop := digit_below 16 c \/ c = 45%N.
Lemma figure_plain c : figure c -> ~ white c /\ ~ In c [10; 13; 35; 44; 46; 120]%N.
Proof.
  assert (K : (Z.of_N c = 45 \/ 48 <= Z.of_N c <= 57 \/ 65 <= Z.of_N c <= 70 \/ 97 <= Z.of_N c <= 102)%Z -> ~ white c /\ ~ In c [10; 13; 35; 44; 46; 120]%N).
  { intros H. unfold white. cbn [In]. lia. }
  intros [(d & [[A B]|[A B]] & L)|E]; apply K; lia.
Qed.
Definition figures (s : str) : Prop := s <> [] /\ Forall figure s.
Lemma digits_figures radix s v : (radix <= 16)%Z -> digits radix s v -> figures s.
Proof.
  intros R D. split; [exact (digits_not_nil _ _ _ D)|]. apply digits_below in D. revert D. apply Forall_impl. intros c (d & X & L). left. exists d. split; [exact X|lia].
Qed.

Lemma written_u32 n : (n <= 4294967295)%N -> exists s, u32_field s n /\ figures s.
Proof. intros B. destruct (digits_exist 10 (Z.of_N n)) as (s & S); [lia|lia|]. exists s. split; [split; [left; exact S|exact B]|]. apply (digits_figures 10 _ (Z.of_N n)); [lia|exact S]. Qed.
Lemma written_i32 z : (-2147483648 <= z <= 2147483647)%Z -> exists s, i32_field s z /\ figures s.
Proof.
  intros B. destruct (Z_le_gt_dec 0 z) as [P|P].
  - destruct (digits_exist 10 z) as (s & S); [lia|lia|]. exists s. split; [split; [left; left; exact S|exact B]|]. apply (digits_figures 10 _ z); [lia|exact S].
  - destruct (digits_exist 10 (- z)) as (s & S); [lia|lia|]. exists (45%N :: s). split; [split; [right; eauto|exact B]|].
    split; [discriminate|]. constructor; [right; reflexivity|]. apply (digits_figures 10 _ (- z)); [lia|exact S].
Qed.

Lemma figures_word s : figures s -> s <> [] /\ Forall (fun c => ~ white c) s.
Proof. intros [N F]. split; [exact N|]. revert F. apply Forall_impl. intros c F. apply figure_plain in F. apply F. Qed.
Lemma figures_free s x : figures s -> In x [10; 13; 35; 44; 46; 120]%N -> ~ In x s.
Proof. intros [_ F] I J. rewrite Forall_forall in F. apply F, figure_plain in J. destruct J as [_ J]. contradiction. Qed.

(* lines, each with a newline *)
Definition with_newlines (ls : list str) : str := flat_map (fun l => l ++ [10%N]) ls.
Lemma file_lines_written ls : Forall (fun l => ~ In 10%N l /\ ~ In 13%N l) ls -> file_lines (with_newlines ls) ls.
Proof.
  induction 1 as [|l ls [N R] F IH]; cbn [with_newlines flat_map]; [constructor|]. rewrite <- app_assoc. cbn [app]. apply fl_newline; [exact N| |exact IH].
  intros p ->. apply R. apply in_or_app. right. left. reflexivity.
Qed.

(* fields joined by single separators *)
Lemma fields_join (sep : char -> Prop) c fs : sep c -> Forall (fun f => f <> [] /\ Forall (fun x => ~ sep x) f) fs -> fields_of sep (join [c] fs) fs.
Proof.
  intros C. induction 1 as [|f fs [N W] F IH]; [apply fo_none; constructor|]. destruct fs as [|g fs].
  - cbn [join]. replace f with ([] ++ f ++ []) at 1 by (cbn; apply app_nil_r). apply fo_last; auto.
  - change (join [c] (f :: g :: fs)) with ([] ++ f ++ c :: join [c] (g :: fs)). apply fo_more; auto. discriminate.
Qed.
Lemma parts_join c ps : ps <> [] -> Forall (fun p => ~ In c p) ps -> parts_of c (join [c] ps) ps.
Proof.
  intros N F. induction F as [|p ps P F IH]; [congruence|]. destruct ps as [|q ps]; [constructor; exact P|].
  change (join [c] (p :: q :: ps)) with (p ++ c :: join [c] (q :: ps)). constructor; [exact P|]. apply IH. discriminate.
Qed.
Lemma join_free c x fs : c <> x -> Forall (fun f => ~ In x f) fs -> ~ In x (join [c] fs).
Proof.
  intros C. induction 1 as [|f fs N F IH]; [intros []|]. destruct fs as [|g fs]; [exact N|]. change (join [c] (f :: g :: fs)) with (f ++ c :: join [c] (g :: fs)).
  intros I. apply in_app_or in I. destruct I as [I|[I|I]]; [exact (N I)|congruence|exact (IH I)].
Qed.
Lemma join_last c fs : Forall (fun f => f <> []) fs -> fs <> [] -> exists a b, join [c] fs = a ++ b /\ In b fs.
Proof.
  induction 1 as [|f fs N F IH]; [congruence|]. intros _. destruct fs as [|g fs]; [exists [], f; split; [reflexivity|left; reflexivity]|].
  destruct IH as (a & b & E & I); [discriminate|]. exists (f ++ c :: a), b. change (join [c] (f :: g :: fs)) with (f ++ c :: join [c] (g :: fs)). rewrite E, <- app_assoc.
  split; [reflexivity|right; exact I].
Qed.
Lemma join_first c f fs : exists b, join [c] (f :: fs) = f ++ b.
Proof. destruct fs as [|g fs]; [exists []; symmetry; apply app_nil_r|]. exists (c :: join [c] (g :: fs)). reflexivity. Qed.

Definition word (f : str) : Prop := f <> [] /\ Forall (fun x => ~ white x) f.
Lemma join_trimmed c f fs : Forall word (f :: fs) -> trimmed (join [c] (f :: fs)) (join [c] (f :: fs)).
Proof.
  intros F. exists [], []. rewrite app_nil_r. split; [reflexivity|]. split; [constructor|]. split; [constructor|]. split.
  - destruct (join_first c f fs) as (b & ->). inversion F as [|? ? [N W] _]; subst. intros x r E. destruct f as [|y f]; [congruence|]. cbn in E. injection E as <- _. inversion W; assumption.
  - destruct (join_last c (f :: fs)) as (a & b & E & I); [revert F; apply Forall_impl; intros ? [X _]; exact X|discriminate|]. rewrite E. intros r x X.
    rewrite Forall_forall in F. destruct (F _ I) as [N W]. destruct (exists_last N) as (b' & y & ->). rewrite app_assoc in X. apply app_inj_tail in X. destruct X as [_ <-].
    rewrite Forall_forall in W. apply W. apply in_or_app. right. left. reflexivity.
Qed.

(** ** matrix.def *)

Lemma written_numbers zs : Forall (fun z => (-2147483648 <= z <= 2147483647)%Z) zs -> exists line, numbers_on line zs /\ ~ In 10%N line /\ ~ In 13%N line.
Proof.
  intros R. assert (K : exists fs, Forall2 i32_field fs zs /\ Forall figures fs).
  { induction R as [|z zs B R (fs & F & G)]; [exists []; split; constructor|]. destruct (written_i32 z B) as (s & S & FS). exists (s :: fs). split; constructor; assumption. }
  destruct K as (fs & F & G). exists (join [32%N] fs). split; [exists fs; split; [|exact F]|].
  - apply fields_join; [cbn; auto 10|]. revert G. apply Forall_impl. exact figures_word.
  - split; (apply join_free; [discriminate|]; revert G; apply Forall_impl; intros s H; apply (figures_free s _ H); cbn; auto).
Qed.
Theorem matrix_written fsize bsize entries : (fsize <= 2147483647)%N -> (bsize <= 2147483647)%N -> entries_fit fsize bsize entries ->
  exists content, matrix_file content fsize bsize entries.
Proof.
  intros B1 B2 E.
  assert (K : exists data, Forall2 (fun line '(f, b, c) => exists rest, numbers_on line (Z.of_N f :: Z.of_N b :: c :: rest)) data entries /\ Forall (fun l => ~ In 10%N l /\ ~ In 13%N l) data).
  { induction E as [|[[f b] c] es (F & B & C) E (data & D & L)]; [exists []; split; constructor|]. unfold is_i16 in C.
    destruct (written_numbers [Z.of_N f; Z.of_N b; c]) as (line & N & L1 & L2); [repeat constructor; lia|]. exists (line :: data). split; constructor; auto. exists []. exact N. }
  destruct K as (data & D & L). destruct (written_numbers [Z.of_N fsize; Z.of_N bsize]) as (line & N & L1 & L2); [repeat constructor; lia|].
  exists (with_newlines (line :: data)), line, data. split; [apply file_lines_written; constructor; auto|]. split; [exists []; exact N|exact D].
Qed.

(** ** unk.def *)

Theorem unk_written n us : 4 <= n -> Forall fits us -> Forall (fun u => ~ In 44%N (ul_name u) /\ ~ In 10%N (ul_name u) /\ ~ In 13%N (ul_name u)) us ->
  exists content, unk_file n content us.
Proof.
  intros B FI NM.
  assert (K : exists ls, Forall2 (unk_says n) ls us /\ Forall (fun l => ~ In 10%N l /\ ~ In 13%N l) ls).
  { induction us as [|u us IH]; [exists []; split; constructor|]. inversion FI as [|? ? (U1 & U2 & U3) FI']; subst. inversion NM as [|? ? (N1 & N2 & N3) NM']; subst.
    destruct (IH FI' NM') as (ls & F & L). unfold is_u16 in U1, U2. unfold is_i16 in U3.
    destruct (written_u32 (ul_left u)) as (f1 & W1 & G1); [lia|]. destruct (written_u32 (ul_right u)) as (f2 & W2 & G2); [lia|].
    destruct (written_i32 (ul_cost u)) as (f3 & W3 & G3); [lia|].
    assert (X : forall x, In x [10; 13; 44]%N -> Forall (fun p => ~ In x p) (ul_name u :: f1 :: f2 :: f3 :: repeat [42%N] (n - 4))).
    { intros x I. constructor; [destruct I as [<-|[<-|[<-|[]]]]; assumption|].
      assert (J : In x [10; 13; 35; 44; 46; 120]%N) by (cbn in *; intuition auto).
      constructor; [exact (figures_free _ _ G1 J)|]. constructor; [exact (figures_free _ _ G2 J)|]. constructor; [exact (figures_free _ _ G3 J)|].
      apply Forall_forall. intros p P. apply repeat_spec in P. subst p. intros [Q|[]]. subst x. cbn in I. lia. }
    exists (join [44%N] (ul_name u :: f1 :: f2 :: f3 :: repeat [42%N] (n - 4)) :: ls). split; constructor; try assumption.
    - exists f1, f2, f3, (repeat [42%N] (n - 4)). split; [apply parts_join; [discriminate|apply X; cbn; auto]|]. split; [rewrite repeat_length; lia|]. auto.
    - split; (apply join_free; [discriminate|apply X; cbn; auto]). }
  destruct K as (ls & F & L). exists (with_newlines ls), ls. split; [apply file_lines_written, L|exact F].
Qed.

(** ** char.def *)

Lemma written_point c : plain_point c -> exists r, figures r /\ hex_point (lit "0x" ++ r) c.
Proof.
  intros (B & N1 & N2 & S). destruct (digits_exist 16 (Z.of_N c)) as (r & R); [lia|lia|]. assert (F := digits_figures 16 _ _ (Z.le_refl _) R). exists r. split; [exact F|].
  exists r, c. split; [|split; [left; exact R|repeat (split; [assumption|])]].
  - split; [exists 1; reflexivity|]. intros r' E. apply (figures_free r 120%N F); [cbn; auto 10|]. rewrite E. cbn. auto.
  - right. auto.
Qed.
Lemma pieces_none (p : str) s : (forall x, In x p -> ~ In x s) -> p <> [] -> pieces_of p s [s].
Proof. intros H N. constructor. intros a b ->. destruct p as [|x p]; [congruence|]. apply (H x); [left; reflexivity|]. apply in_or_app. right. left. reflexivity. Qed.
Lemma pieces_two (x : char) p y z : ~ In x y -> (forall c, In c (x :: p) -> ~ In c z) -> pieces_of (x :: p) (y ++ (x :: p) ++ z) [y; z].
Proof.
  intros Y Z. constructor; [|apply pieces_none; [exact Z|discriminate]]. split; [eauto|]. intros a b E. destruct (Nat.le_gt_cases (List.length y) (List.length a)) as [L|L]; [exact L|].
  exfalso. apply Y. assert (X : nth_error (y ++ (x :: p) ++ z) (List.length a) = Some x) by (rewrite E, nth_error_app2, Nat.sub_diag by lia; reflexivity).
  rewrite nth_error_app1 in X by exact L. exact (nth_error_In _ _ X).
Qed.

Lemma plain_word name : plain_name name -> word name /\ ~ In 35%N name /\ ~ In 10%N name /\ ~ In 13%N name.
Proof.
  intros [N F]. rewrite Forall_forall in F. split; [split; [exact N|apply Forall_forall; intros c I; apply (F c I)]|].
  repeat split; intros I; apply F in I; destruct I as [W X]; [congruence|apply W; cbn; auto|apply W; cbn; auto 10].
Qed.

Lemma line_written d : writable d -> exists line, line_says line [d] /\ ~ In 10%N line /\ ~ In 13%N line.
Proof.
  destruct d as [lo hi names|name data]; cbn [writable].
  - intros (P1 & P2 & NS). destruct (written_point lo P1) as (r1 & F1 & H1). destruct (written_point hi P2) as (r2 & F2 & H2).
    set (x := (lit "0x" ++ r1) ++ lit ".." ++ (lit "0x" ++ r2)).
    assert (NF : forall c r, figures r -> In c [10; 13; 35; 46]%N -> ~ In c (lit "0x" ++ r)).
    { intros c r F I J. apply in_app_or in J. destruct J as [J|J]; [cbn in I, J; lia|]. apply (figures_free r c F); [cbn in *; intuition auto|exact J]. }
    assert (W0 : forall r, figures r -> Forall (fun c => ~ white c) (lit "0x" ++ r)).
    { intros r F. apply Forall_app. split; [|apply figures_word, F]. repeat constructor; unfold white; cbn; lia. }
    assert (WX : word x).
    { split; [discriminate|]. apply Forall_app. split; [apply W0, F1|]. apply Forall_app. split; [|apply W0, F2]. repeat constructor; unfold white; cbn; lia. }
    assert (FX : forall c, In c [10; 13; 35]%N -> ~ In c x).
    { intros c I J. assert (I' : In c [10; 13; 35; 46]%N) by (cbn in *; intuition auto). apply in_app_or in J. destruct J as [J|J]; [exact (NF _ _ F1 I' J)|].
      apply in_app_or in J. destruct J as [J|J]; [cbn in I, J; lia|exact (NF _ _ F2 I' J)]. }
    assert (WS : Forall word (x :: names)) by (constructor; [exact WX|]; revert NS; apply Forall_impl; intros n PN; apply plain_word, PN).
    assert (FS : forall c, In c [10; 13; 35]%N -> Forall (fun f => ~ In c f) (x :: names)).
    { intros c I. constructor; [exact (FX c I)|]. revert NS. apply Forall_impl. intros n PN. apply plain_word in PN. cbn in I. intuition congruence. }
    exists (join [32%N] (x :: names)). split; [|split; (apply join_free; [discriminate|apply FS; cbn; auto])].
    eapply says_range with (y := lit "0x" ++ r1) (z := lit "0x" ++ r2) (body := join [32%N] (x :: names)).
    + split; [apply join_free; [discriminate|apply FS; cbn; auto]|left; reflexivity].
    + apply join_trimmed. exact WS.
    + destruct (join_first 32%N x names) as (b & ->). eexists. unfold x. rewrite <- !app_assoc. reflexivity.
    + apply fields_join; [cbn; auto 10|exact WS].
    + apply pieces_two.
      * apply (NF _ _ F1). cbn. auto.
      * intros c I. apply (NF _ _ F2). cbn in *. intuition auto.
    + exact H1.
    + exact H2.
  - destruct data as [invoke group n]. cbn [cd_length]. intros (PN & N0 & B).
    destruct (written_u32 (if invoke then 1 else 0)%N) as (f1 & W1 & G1); [destruct invoke; lia|].
    destruct (written_u32 (if group then 1 else 0)%N) as (f2 & W2 & G2); [destruct group; lia|]. destruct (written_u32 n B) as (f3 & W3 & G3).
    destruct (plain_word _ PN) as (WN & N1 & N2 & N3).
    assert (WS : Forall word [name; f1; f2; f3]) by (constructor; [exact WN|]; repeat constructor; apply figures_word; assumption).
    assert (FS : forall c, In c [10; 13; 35]%N -> Forall (fun f => ~ In c f) [name; f1; f2; f3]).
    { intros c I. assert (J : In c [10; 13; 35; 44; 46; 120]%N) by (cbn in *; intuition auto).
      constructor; [cbn in I; intuition congruence|]. constructor; [exact (figures_free _ _ G1 J)|]. constructor; [exact (figures_free _ _ G2 J)|].
      constructor; [exact (figures_free _ _ G3 J)|constructor]. }
    exists (join [32%N] [name; f1; f2; f3]). split; [|split; (apply join_free; [discriminate|apply FS; cbn; auto])].
    eapply says_category with (body := join [32%N] [name; f1; f2; f3]) (text := join [32%N] [name; f1; f2; f3]).
    + split; [apply join_free; [discriminate|apply FS; cbn; auto]|left; reflexivity].
    + apply join_trimmed. exact WS.
    + destruct WN as [NN _]. destruct name; [congruence|discriminate].
    + intros r E. change (join [32%N] [name; f1; f2; f3]) with (name ++ 32%N :: join [32%N] [f1; f2; f3]) in E.
      destruct name as [|a [|b name]]; [destruct WN; congruence|cbn in E; discriminate|]. cbn in E. injection E as -> -> _. apply (N0 name). reflexivity.
    + apply fields_join; [cbn; auto 10|]. revert WS. apply Forall_impl. intros f [N W]. split; [exact N|]. revert W. apply Forall_impl. intros c W A. apply W.
      revert A. unfold ascii_white, white. cbn [In]. intuition auto 10.
    + exact W1.
    + exact W2.
    + exact W3.
    + destruct invoke; split; congruence.
    + destruct group; split; congruence.
Qed.

Theorem char_written ds : Forall writable ds -> exists content, char_file content ds.
Proof.
  intros W. assert (K : exists ls, Forall2 line_says ls (map (fun d => [d]) ds) /\ Forall (fun l => ~ In 10%N l /\ ~ In 13%N l) ls).
  { induction W as [|d ds D W (ls & F & L)]; [exists []; split; constructor|]. destruct (line_written d D) as (l & S & N1 & N2). exists (l :: ls). split; constructor; auto. }
  destruct K as (ls & F & L). exists (with_newlines ls), ls, (map (fun d => [d]) ds). split; [apply file_lines_written, L|]. split; [exact F|].
  clear. induction ds as [|d ds IH]; [reflexivity|]. cbn. f_equal. exact IH.
Qed.

(** ** Written and read back *)

Theorem matrix_back fsize bsize entries : (fsize <= 32767)%N -> (bsize <= 32767)%N -> entries_fit fsize bsize entries ->
  exists content bytes m, matrix_file content fsize bsize entries /\ build_matrix content = Ok bytes /\ cm_load bytes = Ok m /\
    forall f b, (f < fsize)%N -> (b < bsize)%N -> cm_cost m f b = Ok (matrix_cost entries f b).
Proof.
  intros F B E. destruct (matrix_written fsize bsize entries) as (content & W); [lia|lia|exact E|].
  destruct (matrix_round_trip fsize bsize F B content entries) as (bytes & m & H); [apply matrix_file_spec, W|exact E|]. exists content, bytes, m. split; assumption.
Qed.
Theorem char_back ds : Forall writable ds -> exists content cd, char_file content ds /\ char_def_of content = Ok cd /\
  categories cd = nub (flat_map mentions ds) /\
  forall c, exists ids, lookup_categories cd c = Ok ids /\ mapM (category_name cd) ids = Ok (categories_of ds c).
Proof.
  intros W. destruct (char_written ds W) as (content & C). destruct (char_def_categories content ds) as (cd & D & K & S); [apply char_file_spec, C|].
  exists content, cd. split; [exact C|]. split; [exact D|]. split; [exact K|]. intros c. exact (S binary_search c binary_search_contract).
Qed.
Theorem unk_back cats n us : 4 <= n -> Forall fits us -> Forall (fun u => ~ In 44%N (ul_name u) /\ ~ In 10%N (ul_name u) /\ ~ In 13%N (ul_name u)) us ->
  exists content d, unk_file n content us /\ parse_unk cats content n = Ok d /\
    (forall c name, nth_error cats c = Some name -> exists ids, ud_lookup_word_ids d c = Ok ids /\ lines_about name us ids) /\
    (forall k u, nth_error us (N.to_nat k) = Some u -> exists e, ud_word_entry d k = Ok e /\
       we_cost e = ul_cost u /\ we_left e = ul_left u /\ we_right e = ul_right u /\ is_unknown (we_id e) = true /\ is_system (we_id e) = true).
Proof.
  intros B F N. destruct (unk_written n us B F N) as (content & W). destruct (unk_def_spec cats content n us) as (d & D); [apply unk_file_spec, W|exact F|].
  exists content, d. split; assumption.
Qed.
