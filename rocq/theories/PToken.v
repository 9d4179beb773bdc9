(** Property theorems about the token filters: C31 - C38, C46. *)
From Coq Require Import String.
From Coq Require Import List NArith ZArith Bool Lia.
From Verif Require Import MBase MUtf8 MText MCodec MDict MCharDef MTokenizer MDetails MBuild MCharFilter MAnalyzer MTokenFilter
  SBuild SCharFilter STokenFilter LKinds LFilterProps LTokenFilter LNumeral LTokenProps.
Import ListNotations.
Local Open Scope string_scope.
Local Open Scope list_scope.

(* a token at a place, with details *)
Definition tok (text : str) (start fin : N) (pos : nat) (details : list str) : ftoken :=
  FToken text start fin pos 1 (WordId 7 true) details.
Definition noun : list str := [lit "N"; lit "num"; lit "*"; lit "*"; lit "*"; lit "*"; lit "b"; lit "r"; lit "p"].
Definition particle : list str := [lit "P"; lit "case"; lit "x"; lit "*"; lit "*"; lit "*"; lit "b"; lit "r"; lit "p"].
Definition three : list ftoken := [tok (lit "ab") 0 2 0 noun; tok (lit "c") 2 3 1 noun; tok (lit "def") 3 6 2 particle].

(** C31 *)
Theorem C31_length : forall min max ts, exists out, length_apply min max ts = Ok out /\ selected (length_ok min max) ts out.
Proof. exact length_selected. Qed.
Print Assumptions C31_length.
Theorem C31_keep_words : forall words ts, exists out, keep_words_apply words ts = Ok out /\ selected (fun tk => In (ft_text tk) words) ts out.
Proof. exact keep_words_selected. Qed.
Print Assumptions C31_keep_words.
Theorem C31_stop_words : forall words ts, exists out, stop_words_apply words ts = Ok out /\ selected (fun tk => ~ In (ft_text tk) words) ts out.
Proof. exact stop_words_selected. Qed.
Print Assumptions C31_stop_words.
Theorem C31_partition : forall words ts a b, keep_words_apply words ts = Ok a -> stop_words_apply words ts = Ok b -> interleaved ts a b.
Proof. exact words_partition. Qed.
Print Assumptions C31_partition.
Theorem C31_idempotent : forall words min max ts out,
  (keep_words_apply words ts = Ok out -> keep_words_apply words out = Ok out) /\
  (stop_words_apply words ts = Ok out -> stop_words_apply words out = Ok out) /\
  (length_apply min max ts = Ok out -> length_apply min max out = Ok out).
Proof. exact word_filters_again. Qed.
Print Assumptions C31_idempotent.
(* the selection is determined by the condition *)
Theorem C31_one_selection : forall (P : ftoken -> Prop) ts out out', selected P ts out -> selected P ts out' -> out = out'.
Proof. intros P ts out out' A B. exact (selected_unique P ts out A out' B). Qed.
Print Assumptions C31_one_selection.
Example C31_ex : length_apply (Some 2) (Some 2) three = Ok [nth 0 three (tok [] 0 0 0 [])] /\
  keep_words_apply [lit "c"; lit "def"] three = Ok (skipn 1 three) /\ stop_words_apply [lit "c"; lit "def"] three = Ok (firstn 1 three).
Proof. repeat split; vm_compute; reflexivity. Qed.

(** C32 *)
Theorem C32_japanese_keep : forall tags ts, Forall short_tag tags -> Forall (fun tk => ft_details tk <> []) ts ->
  exists fts out, format_tags tags = Ok fts /\ japanese_keep_tags_apply fts ts = Ok out /\ selected (has_tag tags) ts out.
Proof. exact keep_tags_selected. Qed.
Print Assumptions C32_japanese_keep.
Theorem C32_japanese_stop : forall tags ts, Forall short_tag tags -> Forall (fun tk => ft_details tk <> []) ts ->
  exists fts out, format_tags tags = Ok fts /\ japanese_stop_tags_apply fts ts = Ok out /\ selected (fun tk => ~ has_tag tags tk) ts out.
Proof. exact stop_tags_selected. Qed.
Print Assumptions C32_japanese_stop.
Theorem C32_korean : forall tags ts, Forall (fun tk => ft_details tk <> []) ts ->
  exists kept stopped, korean_keep_tags_apply tags ts = Ok kept /\ korean_stop_tags_apply tags ts = Ok stopped /\
    selected (fun tk => exists d r, ft_details tk = d :: r /\ In d tags) ts kept /\
    selected (fun tk => ~ exists d r, ft_details tk = d :: r /\ In d tags) ts stopped.
Proof. exact korean_tags_selected. Qed.
Print Assumptions C32_korean.
Theorem C32_partition : forall (P : ftoken -> Prop) ts a b, selected P ts a -> selected (fun tk => ~ P tk) ts b -> interleaved ts a b.
Proof. intros P ts a b A B. exact (selected_interleaved P ts a A b B). Qed.
Print Assumptions C32_partition.
(* a tag of more than four parts stops the program *)
Theorem C32_five_parts_panic : forall tags tag ps, In tag tags -> comma_parts ps tag -> 4 < List.length ps -> format_tags tags = Panic.
Proof. exact format_tags_long. Qed.
Print Assumptions C32_five_parts_panic.
Example C32_ex : short_tag (lit "N,num") /\
  (exists fts, format_tags [lit "N,num"; lit "P"] = Ok fts /\ japanese_keep_tags_apply fts three = Ok (firstn 2 three) /\
     japanese_stop_tags_apply fts three = Ok (skipn 2 three)) /\
  korean_keep_tags_apply [lit "P"] three = Ok (skipn 2 three) /\
  format_tags [lit "a,b,c,d,e"] = Panic.
Proof.
  repeat match goal with |- _ /\ _ => split end; try (vm_compute; reflexivity).
  - exists [lit "N"; lit "num"]. split; [|vm_compute; lia]. split; [discriminate|]. split; [|reflexivity].
    repeat constructor; vm_compute; intros H; repeat (destruct H as [H|H]; [discriminate|]); contradiction.
  - eexists. split; [vm_compute; reflexivity|]. split; vm_compute; reflexivity.
Qed.

(** C33 *)
Theorem C33_maximal_runs : forall kind tags new_tag ts, Forall short_tag tags -> (forall t, new_tag = Some t -> short_tag t) ->
  Forall (fun tk => ft_details tk <> []) ts ->
  exists cfg out, compound_config_new kind tags new_tag = Ok cfg /\ compound_apply cfg ts = Ok out /\
    compounded (has_tag tags) (new_details kind (option_map (split_char 44%N) new_tag)) ts out.
Proof. exact compound_spec. Qed.
Print Assumptions C33_maximal_runs.
Theorem C33_totals : forall P details ts out, compounded P details ts out ->
  flat_map ft_text out = flat_map ft_text ts /\ sum (map ft_position_length out) = sum (map ft_position_length ts).
Proof. exact compounded_totals. Qed.
Print Assumptions C33_totals.
Theorem C33_one_answer : forall P details ts out out', compounded P details ts out -> compounded P details ts out' -> out = out'.
Proof. intros P details ts out out' A B. exact (compounded_unique P details ts out A out' B). Qed.
Print Assumptions C33_one_answer.
(* split_char 44 gives the parts of a tag *)
Theorem C33_parts : forall tag, comma_parts (split_char 44%N tag) tag.
Proof. exact split_parts. Qed.
Print Assumptions C33_parts.
Example C33_ex : exists cfg, compound_config_new IPADIC [lit "N,num"] (Some (lit "C,x")) = Ok cfg /\
  compound_apply cfg three =
    Ok [FToken (lit "abc") 0 3 0 2 (WordId 7 true) [lit "C"; lit "x"; lit "*"; lit "*"; lit "*"; lit "*"; lit "*"; lit "*"; lit "*"];
        nth 2 three (tok [] 0 0 0 [])] /\
  (* tokens need not touch *)
  compound_apply cfg [tok (lit "a") 0 1 0 noun; tok (lit "b") 9 10 7 noun] =
    Ok [FToken (lit "ab") 0 10 0 2 (WordId 7 true) [lit "C"; lit "x"; lit "*"; lit "*"; lit "*"; lit "*"; lit "*"; lit "*"; lit "*"]].
Proof. eexists. split; [vm_compute; reflexivity|]. split; vm_compute; reflexivity. Qed.

(** C34 *)
Theorem C34_numeral_value : forall s v, numeral s v ->
  exists r, to_arabic_numerals s = Ok r /\ is_decimal r /\ decimal_value r = v /\ match r with c :: _ => (49 <= c)%N | [] => False end.
Proof. exact numeral_value. Qed.
Print Assumptions C34_numeral_value.
Theorem C34_every_number : forall v, (0 < v < 10 ^ 24)%N -> exists s, numeral s v.
Proof. exact every_number. Qed.
Print Assumptions C34_every_number.
Theorem C34_digits : forall ds gs, Forall2 glyph ds gs -> to_arabic_numerals gs = Ok (map (fun d => 48 + d)%N ds).
Proof. exact digit_string. Qed.
Print Assumptions C34_digits.
Theorem C34_other_text : forall s, Forall (fun c => ~ is_unit c) s -> exists r, to_arabic_numerals s = Ok r /\ Forall2 glyph_image s r.
Proof. exact plain_text. Qed.
Print Assumptions C34_other_text.
(* tokens with one of the tags, or all if there are no tags, are converted *)
Theorem C34_tokens : forall tags ts,
  (forall tags', tags = Some tags' -> Forall short_tag tags') -> Forall (fun tk => ft_details tk <> []) ts ->
  (forall tk, In tk ts -> (forall tags', tags = Some tags' -> has_tag tags' tk) -> exists r, to_arabic_numerals (ft_text tk) = Ok r) ->
  exists ftags out, match tags with Some t => do f <- format_tags t; Ok (Some f) | None => Ok None end = Ok ftags /\
    japanese_number_apply ftags ts = Ok out /\
    Forall2 (fun tk tk' => only_text tk tk' /\
      ((forall tags', tags = Some tags' -> has_tag tags' tk) -> to_arabic_numerals (ft_text tk) = Ok (ft_text tk')) /\
      (forall tags', tags = Some tags' -> ~ has_tag tags' tk -> ft_text tk' = ft_text tk)) ts out.
Proof. exact number_spec. Qed.
Print Assumptions C34_tokens.
(* 二千三万十四 = 20030014; 25万 = 250000 *)
Lemma ex_numeral : numeral [0x4E8C; 0x5343; 0x4E09; 0x4E07; 0x5341; 0x56DB]%N 20030014.
Proof.
  exists [0x4E8C; 0x5343; 0x4E09; 0x4E07]%N, 20030000%N, [0x5341; 0x56DB]%N, 14%N. split; [|split].
  - change 20030000%N with (0 + (0 + (0 + (0 + (2003 * 10 ^ N.of_nat 4 + 0)))))%N.
    apply (larges_cons _ _ _ []); [constructor|]. apply (larges_cons _ _ _ []); [constructor|]. apply (larges_cons _ _ _ []); [constructor|].
    apply (larges_cons _ _ _ []); [constructor|]. apply (larges_cons _ _ _ [0x4E8C; 0x5343; 0x4E09; 0x4E07]%N _ [] 0); [|constructor].
    apply (large_section _ _ [0x4E8C; 0x5343; 0x4E09]%N); [|discriminate]. change 2003%N with (2 * 1000 + 0 + 0 + 3)%N.
    apply (section_parts [0x4E8C; 0x5343]%N _ [] _ [] _ [0x4E09]%N); try constructor; try (left; reflexivity); try lia.
    + exists [0x32; 0xFF12; 0x4E8C; 0x5F10]%N. cbn. auto 16.
    + exists [0x33; 0xFF13; 0x4E09; 0x53C2]%N. cbn. auto 16.
  - change 14%N with (0 + 0 + 10 + 4)%N. apply (section_parts [] _ [] _ [0x5341]%N _ [0x56DB]%N); try constructor; try (left; reflexivity); try lia.
    exists [0x34; 0xFF14; 0x56DB]%N. cbn. auto 16.
  - split; [reflexivity|]. split; [reflexivity|discriminate].
Qed.
Example C34_ex : numeral [0x4E8C; 0x5343; 0x4E09; 0x4E07; 0x5341; 0x56DB]%N 20030014 /\
  to_arabic_numerals [0x4E8C; 0x5343; 0x4E09; 0x4E07; 0x5341; 0x56DB]%N = Ok (lit "20030014") /\
  to_arabic_numerals [50; 53; 0x4E07]%N = Ok (lit "250000") /\
  to_arabic_numerals [0x5343; 0x4E07]%N = Ok (lit "10000000") /\
  to_arabic_numerals [0x4E00; 0x3007; 97]%N = Ok (lit "10a") /\
  exists fts, format_tags [lit "N,num"] = Ok fts /\
    japanese_number_apply (Some fts) [tok [0x767E]%N 0 3 0 noun; tok [0x767E]%N 3 6 1 particle] =
      Ok [tok (lit "100") 0 3 0 noun; tok [0x767E]%N 3 6 1 particle].
Proof.
  split; [exact ex_numeral|]. repeat match goal with |- _ /\ _ => split end; try (vm_compute; reflexivity).
  eexists. split; [vm_compute; reflexivity|]. vm_compute. reflexivity.
Qed.

(** C35 *)
(* 十二指腸, 十百 and 十100 *)
Theorem C35_panics_refuted : ~ (forall s, exists r, to_arabic_numerals s = Ok r).
Proof. intros H. destruct (H [0x5341; 0x4E8C; 0x6307; 0x8178]%N) as (r & E). vm_compute in E. discriminate. Qed.
Print Assumptions C35_panics_refuted.
Theorem C35_no_panic : forall s, Forall (fun c => ~ is_unit c) s \/ (exists v, numeral s v) -> exists r, to_arabic_numerals s = Ok r.
Proof.
  intros s [F|(v & N)].
  - destruct (plain_text s F) as (r & E & _). exists r. exact E.
  - destruct (numeral_value s v N) as (r & E & _). exists r. exact E.
Qed.
Print Assumptions C35_no_panic.
Example C35_ex : to_arabic_numerals [0x5341; 0x767E]%N = Panic /\ to_arabic_numerals [0x5341; 49; 48; 48]%N = Panic /\
  to_arabic_numerals [0x6307; 0x8178]%N = Ok [0x6307; 0x8178]%N.
Proof. repeat split; vm_compute; reflexivity. Qed.

(** C46 *)
(* 千円 becomes 1円 *)
Theorem C46_suffix_refuted : ~ (forall s v t r, numeral s v -> Forall (fun c => ~ is_unit c /\ forall d, ~ glyph d c) t ->
  to_arabic_numerals s = Ok r -> to_arabic_numerals (s ++ t) = Ok (r ++ t)).
Proof.
  intros H. specialize (H [0x5343]%N 1000%N [0x5186]%N (lit "1000")).
  assert (X : to_arabic_numerals [0x5343; 0x5186]%N = Ok (lit "1000" ++ [0x5186]%N)).
  { apply H; [| |vm_compute; reflexivity].
    - exists [], 0%N, [0x5343]%N, 1000%N. split; [|split; [|split; [reflexivity|split; [reflexivity|discriminate]]]].
      + change 0%N with (0 + (0 + (0 + (0 + (0 + 0)))))%N. repeat (apply (larges_cons _ _ _ []); [constructor|]). constructor.
      + change 1000%N with (1000 + 0 + 0 + 0)%N. apply (section_parts [0x5343]%N _ [] _ [] _ []); repeat constructor.
    - constructor; [|constructor]. split.
      + unfold is_unit, small_units, large_units. cbn. intuition discriminate.
      + intros d G. destruct (glyph_facts d _ G) as (E & _). vm_compute in E. discriminate. }
  vm_compute in X. discriminate.
Qed.
Print Assumptions C46_suffix_refuted.
(* 第十 becomes 第0 *)
Theorem C46_prefix_refuted : ~ (forall s v t r, numeral s v -> Forall (fun c => ~ is_unit c /\ forall d, ~ glyph d c) t ->
  to_arabic_numerals s = Ok r -> to_arabic_numerals (t ++ s) = Ok (t ++ r)).
Proof.
  intros H. specialize (H [0x5341]%N 10%N [0x7B2C]%N (lit "10")).
  assert (X : to_arabic_numerals [0x7B2C; 0x5341]%N = Ok ([0x7B2C]%N ++ lit "10")).
  { apply H; [| |vm_compute; reflexivity].
    - exists [], 0%N, [0x5341]%N, 10%N. split; [|split; [|split; [reflexivity|split; [reflexivity|discriminate]]]].
      + change 0%N with (0 + (0 + (0 + (0 + (0 + 0)))))%N. repeat (apply (larges_cons _ _ _ []); [constructor|]). constructor.
      + change 10%N with (0 + 0 + 10 + 0)%N. apply (section_parts [] _ [] _ [0x5341]%N _ []); repeat constructor.
    - constructor; [|constructor]. split.
      + unfold is_unit, small_units, large_units. cbn. intuition discriminate.
      + intros d G. destruct (glyph_facts d _ G) as (E & _). vm_compute in E. discriminate. }
  vm_compute in X. discriminate.
Qed.
Print Assumptions C46_prefix_refuted.
(* digits may stand next to other text *)
Theorem C46_digits : forall s, Forall (fun c => ~ is_unit c) s -> exists r, to_arabic_numerals s = Ok r /\ Forall2 glyph_image s r.
Proof. exact plain_text. Qed.
Print Assumptions C46_digits.
(* a numeral that starts with a digit may stand after other text *)
Theorem C46_prefix_partial : forall g d s t v, glyph d g -> numeral (g :: s) v -> Forall (fun c => ~ is_unit c) t ->
  exists r t', to_arabic_numerals (t ++ g :: s) = Ok (t' ++ r) /\ Forall2 glyph_image t t' /\ is_decimal r /\ decimal_value r = v.
Proof. exact prefixed_numeral. Qed.
Print Assumptions C46_prefix_partial.
Example C46_prefix_ex : glyph 2 0x4E8C%N /\ numeral (0x4E8C :: [0x5343; 0x4E09; 0x4E07; 0x5341; 0x56DB])%N 20030014 /\
  Forall (fun c => ~ is_unit c) [0x7B2C]%N /\
  to_arabic_numerals ([0x7B2C] ++ 0x4E8C :: [0x5343; 0x4E09; 0x4E07; 0x5341; 0x56DB])%N = Ok ([0x7B2C]%N ++ lit "20030014").
Proof.
  split; [exists [0x32; 0xFF12; 0x4E8C; 0x5F10]%N; cbn; auto 16|]. split; [exact ex_numeral|]. split; [|vm_compute; reflexivity].
  constructor; [|constructor]. unfold is_unit, small_units, large_units. cbn. intuition discriminate.
Qed.
Example C46_ex : to_arabic_numerals [0x5343; 0x5186]%N = Ok [49; 0x5186]%N /\ to_arabic_numerals [0x4E07; 0x5186]%N = Ok [49; 48; 0x5186]%N /\
  to_arabic_numerals [0x767E; 0x5186]%N = Panic /\ to_arabic_numerals [0x7B2C; 0x5341]%N = Ok [0x7B2C; 48]%N /\
  to_arabic_numerals [0xFF13; 0x5186]%N = Ok [51; 0x5186]%N.
Proof. repeat split; vm_compute; reflexivity. Qed.

(** C36 *)
Theorem C36_stem : forall fb min ts, blocks_ok fb -> Forall (fun tk => Forall (fun c => fb c <> None) (ft_text tk)) ts ->
  exists out, katakana_stem_apply fb min ts = Ok out /\ Forall2 (fun tk tk' => only_text tk tk' /\ stemmed min (ft_text tk) (ft_text tk')) ts out.
Proof. exact katakana_stem_spec. Qed.
Print Assumptions C36_stem.
(* a character outside all blocks, after katakana or first, stops the program *)
Theorem C36_no_block_panics : forall fb min tk ts a c b, ft_text tk = a ++ c :: b -> Forall (fun x => fb x = Some (0x30A0, 0x30FF)%N) a -> fb c = None ->
  katakana_stem_apply fb min (tk :: ts) = Panic.
Proof. exact katakana_stem_panics. Qed.
Print Assumptions C36_no_block_panics.
Definition two_blocks (c : char) : option (N * N) :=
  if (c <=? 127)%N then Some (0, 127)%N else if ((0x30A0 <=? c) && (c <=? 0x30FF))%N then Some (0x30A0, 0x30FF)%N else None.
Example C36_ex : blocks_ok two_blocks /\
  katakana_stem_apply two_blocks 3 [tok [0x30AB; 0x30AB; 0x30AB; 0x30FC]%N 0 12 0 noun; tok [0x30AB; 0x30AB; 0x30FC]%N 12 21 1 noun; tok [97; 0x30AB; 0x30AB; 0x30FC]%N 21 31 2 noun] =
    Ok [tok [0x30AB; 0x30AB; 0x30AB]%N 0 12 0 noun; tok [0x30AB; 0x30AB; 0x30FC]%N 12 21 1 noun; tok [97; 0x30AB; 0x30AB; 0x30FC]%N 21 31 2 noun] /\
  katakana_stem_apply two_blocks 3 [tok [0x2FE0]%N 0 3 0 noun] = Panic.
Proof.
  split; [|split; vm_compute; reflexivity]. split.
  - intros c b. unfold two_blocks. destruct (N.leb_spec c 127); [intros E; injection E as <-; cbn; lia|].
    destruct ((0x30A0 <=? c) && (c <=? 0x30FF))%N eqn:E; [|discriminate]. intros X. injection X as <-. apply andb_true_iff in E. rewrite !N.leb_le in E. exact E.
  - intros c H. unfold two_blocks. destruct (N.leb_spec c 127); [lia|]. destruct (N.leb_spec 0x30A0 c); [|lia]. destruct (N.leb_spec c 0x30FF); [|lia]. reflexivity.
Qed.

(** C37 *)
Theorem C37_reading_form : forall k ts, Forall (details_cover (reading_place k)) ts ->
  exists out, japanese_reading_form_apply k ts = Ok out /\ Forall2 (detail_result (reading_place k)) ts out.
Proof. intros k. exact (detail_filter_spec (reading_place k)). Qed.
Print Assumptions C37_reading_form.
Theorem C37_base_form : forall k ts, Forall (details_cover (base_place k)) ts ->
  exists out, japanese_base_form_apply k ts = Ok out /\ Forall2 (detail_result (base_place k)) ts out.
Proof. intros k. exact (detail_filter_spec (base_place k)). Qed.
Print Assumptions C37_base_form.
Theorem C37_korean_reading_form : forall ts, Forall (details_cover (Some 3)) ts ->
  exists out, korean_reading_form_apply ts = Ok out /\ Forall2 (detail_result (Some 3)) ts out.
Proof. exact (detail_filter_spec (Some 3)). Qed.
Print Assumptions C37_korean_reading_form.
Theorem C37_user_rows : forall k r ds, user_row_details (kind_user_options k) r = Some ds ->
  (forall i, reading_place k = Some i -> i < List.length ds) /\ (forall i, base_place k = Some i -> i < List.length ds) /\ 3 < List.length ds /\ ds <> [].
Proof. exact user_row_details_cover. Qed.
Print Assumptions C37_user_rows.
(* a simple UniDic user row has the reading where the filter looks for it, but no base form: the text becomes "*" *)
Theorem C37_unidic_simple_row : forall s pos reading,
  exists ds, user_row_details (kind_user_options UniDic) [s; pos; reading] = Some ds /\
    (forall i, reading_place UniDic = Some i -> nth_error ds i = Some reading) /\ (forall i, base_place UniDic = Some i -> nth_error ds i = Some (lit "*")).
Proof. intros s pos reading. eexists. split; [reflexivity|]. split; intros i E; injection E as <-; reflexivity. Qed.
Print Assumptions C37_unidic_simple_row.
Example C37_ex : Forall (details_cover (reading_place IPADIC)) three /\
  japanese_reading_form_apply IPADIC (tok (lit "z") 0 1 0 [lit "UNK"] :: firstn 1 three) = Ok [tok (lit "z") 0 1 0 [lit "UNK"]; tok (lit "r") 0 2 0 noun] /\
  japanese_base_form_apply IPADIC (firstn 1 three) = Ok [tok (lit "b") 0 2 0 noun] /\
  korean_reading_form_apply (skipn 2 three) = Ok [tok (lit "*") 3 6 2 particle] /\
  japanese_base_form_apply UniDic three = Panic.
Proof.
  split; [|repeat split; vm_compute; reflexivity].
  unfold three. repeat (apply Forall_cons; [split; [discriminate|right; intros i E; injection E as <-; vm_compute; lia]|]). constructor.
Qed.

(** C38 *)
Theorem C38_only_text : forall ts out,
  (forall f, mapping_tokens f ts = Some (Ok out) -> Forall2 only_text ts out) /\
  (forall convert, convert_apply convert ts = Ok out -> Forall2 only_text ts out) /\
  (forall tags, japanese_number_apply tags ts = Ok out -> Forall2 only_text ts out) /\
  (forall fb min, katakana_stem_apply fb min ts = Ok out -> Forall2 only_text ts out) /\
  (forall k, japanese_reading_form_apply k ts = Ok out -> Forall2 only_text ts out) /\
  (forall k, japanese_base_form_apply k ts = Ok out -> Forall2 only_text ts out) /\
  (korean_reading_form_apply ts = Ok out -> Forall2 only_text ts out).
Proof. intros ts out. split; [intros f E; exact (mapping_tokens_only f ts out E)|]. exact (proj2 (text_filters_only_text ts out)). Qed.
Print Assumptions C38_only_text.
Theorem C38_offsets : forall ts out, Forall2 only_text ts out ->
  List.length out = List.length ts /\ map ft_start out = map ft_start ts /\ map ft_end out = map ft_end ts /\
  map ft_position out = map ft_position ts /\ map ft_position_length out = map ft_position_length ts /\ map ft_word out = map ft_word ts /\
  map ft_details out = map ft_details ts.
Proof. exact only_text_offsets. Qed.
Print Assumptions C38_offsets.
(* the mapping filter replaces from left to right by the longest key, and neither it nor the conversions fail *)
Theorem C38_mapping : forall m f ts, mapping_keys_ok m -> mapping_new m = Ok f -> Forall (fun tk => valid_str (ft_text tk)) ts ->
  exists out, mapping_tokens f ts = Some (Ok out) /\ Forall2 only_text ts out /\
    Forall2 (fun tk tk' => exists segs, replaced m (ft_text tk) (ft_text tk') segs) ts out.
Proof. exact mapping_tokens_spec. Qed.
Print Assumptions C38_mapping.
Theorem C38_convert : forall convert ts, exists out, convert_apply convert ts = Ok out /\
  Forall2 (fun tk tk' => only_text tk tk' /\ ft_text tk' = convert (ft_text tk)) ts out.
Proof. exact convert_spec. Qed.
Print Assumptions C38_convert.
Example C38_ex : mapping_keys_ok [(lit "a", lit "xy"); (lit "ab", [])] /\
  exists f, mapping_new [(lit "a", lit "xy"); (lit "ab", [])] = Ok f /\
  mapping_tokens f [tok (lit "caab") 0 4 0 noun] = Some (Ok [tok (lit "cxy") 0 4 0 noun]).
Proof.
  split; [apply mapping_keys_okb_spec; vm_compute; reflexivity|]. eexists. split; [vm_compute; reflexivity|]. vm_compute. reflexivity.
Qed.
