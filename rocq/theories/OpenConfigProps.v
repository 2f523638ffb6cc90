(** C145: open_configuation and the text of a telescope. *)
From Coq Require Import Ascii String List ZArith Bool Lia.
From Verif Require Import OpenConfigModel.
Import ListNotations.
Local Open Scope list_scope.

(** * Specification *)
(** m is a mapping: different keys, as those of YAML and Python *)
Definition is_mapping (m : list (yaml * yaml)) : Prop := NoDup (map fst m) /\ forall k, In k (map fst m) -> hashable k = true.
(** the argument stands for the document *)
Inductive stands_for (file_content : list ascii -> option (list ascii)) : argument -> list ascii -> Prop :=
| by_name s c : s <> [] -> file_content s = Some c -> stands_for file_content (Text s) c
| by_text s : s <> [] -> file_content s = None -> stands_for file_content (Text s) s.
(** a text is printed as lines *)
Definition plain (t : list ascii) : Prop := t <> [] /\ ~ In newline t.
Fixpoint lines (current t : list ascii) : list (list ascii) :=
  match t with [] => [current] | c :: r => if ascii_dec c newline then current :: lines [] r else lines (current ++ [c]) r end.

(** * Proofs *)
Lemma key_refl k : hashable k = true -> key_eqb k k = true.
Proof. destruct k; cbn; try discriminate; intros _; [reflexivity|apply Z.eqb_refl|]. destruct (list_eq_dec ascii_dec s s); [reflexivity|congruence]. Qed.
Lemma key_eq a b : key_eqb a b = true -> a = b.
Proof. destruct a, b; cbn; try discriminate; intros H; [reflexivity|apply Z.eqb_eq in H; congruence|]. destruct (list_eq_dec ascii_dec s s0); [congruence|discriminate]. Qed.
Lemma insert_new k v d : ~ In k (map fst d) -> insert k v d = d ++ [(k, v)].
Proof.
  induction d as [|(k', v') d IH]; intros H; [reflexivity|]. cbn [insert app]. destruct (key_eqb k k') eqn:E; [apply key_eq in E; subst; destruct H; left; reflexivity|]. rewrite IH; [reflexivity|]. intros I. apply H. right. exact I.
Qed.
Lemma insert_all m : forall d, NoDup (map fst (d ++ m)) -> fold_left (fun d kv => insert (fst kv) (snd kv) d) m d = d ++ m.
Proof.
  induction m as [|(k, v) m IH]; intros d N; cbn [fold_left fst snd]; [now rewrite app_nil_r|]. rewrite insert_new.
  - rewrite IH by (rewrite <- app_assoc; exact N). rewrite <- app_assoc. reflexivity.
  - rewrite map_app in N. apply NoDup_remove_2 in N. intros I. apply N, in_or_app. left. exact I.
Qed.
Lemma stands_open safe_load file_content python2 a text : stands_for file_content a text -> open_configuation safe_load file_content python2 a = load safe_load text.
Proof. intros [s c N F|s N F]; (destruct s; [congruence|]); unfold open_configuation; rewrite F; reflexivity. Qed.
(** A file or a text with a mapping gives exactly this mapping, and the name of a file is the same as its content; an error of the YAML parser is passed on. *)
Theorem C145_loaded safe_load file_content python2 a text : stands_for file_content a text ->
  (forall m, safe_load text = Some (YMap m) -> is_mapping m -> open_configuation safe_load file_content python2 a = inr m) /\
  (safe_load text = None -> open_configuation safe_load file_content python2 a = inl YamlError) /\
  (file_content text = None -> text <> [] -> open_configuation safe_load file_content python2 a = open_configuation safe_load file_content python2 (Text text)).
Proof.
  intros S. assert (E : open_configuation safe_load file_content python2 a = load safe_load text) by (apply stands_open, S).
  rewrite E. unfold load. split; [|split].
  - intros m -> (N & _). unfold update. rewrite (insert_all m []) by exact N. reflexivity.
  - intros ->. reflexivity.
  - intros F N. destruct text; [congruence|]. unfold open_configuation, load. rewrite F. reflexivity.
Qed.
(** Nothing, an empty text and an empty dictionary give an empty configuration. *)
Theorem C145_empty safe_load file_content python2 : open_configuation safe_load file_content python2 Nothing = inr [] /\ open_configuation safe_load file_content python2 (Text []) = inr [] /\ open_configuation safe_load file_content python2 (Dictionary []) = inr [].
Proof. repeat split. Qed.
(** A dictionary is documented as argument in the code ("conf is already a dict"), but every dictionary with entries and every open file is a NameError in Python 3; in Python 2 the dictionary is returned. *)
Theorem C145_dict_refuted safe_load file_content d : d <> [] -> open_configuation safe_load file_content false (Dictionary d) = inl NameError /\
  (forall content, open_configuation safe_load file_content false (OpenFile content) = inl NameError) /\ (is_mapping d -> open_configuation safe_load file_content true (Dictionary d) = inr d).
Proof.
  intros N. destruct d as [|kv d]; [congruence|]. split; [reflexivity|]. split; [reflexivity|]. intros (U & _). unfold open_configuation, update. rewrite (insert_all _ []) by exact U. reflexivity.
Qed.
(** The name of a missing file is not reported as such: as YAML it is a text, and a text with at least one character is a ValueError. *)
Theorem C145_missing_refuted safe_load file_content python2 s c t : file_content s = None -> s <> [] -> safe_load s = Some (YText (c :: t)) -> open_configuation safe_load file_content python2 (Text s) = inl ValueError.
Proof. intros F N L. destruct s; [congruence|]. unfold open_configuation, load. rewrite F, L. reflexivity. Qed.
(** A document which is not a mapping can be accepted: a list of texts with two characters each (different first characters) is taken as pairs of key and value. *)
Theorem C145_pairs_refuted safe_load file_content python2 a text (l : list (ascii * ascii)) : stands_for file_content a text -> NoDup (map fst l) ->
  safe_load text = Some (YList (map (fun p => YText [fst p; snd p]) l)) -> open_configuation safe_load file_content python2 a = inr (map (fun p => (YText [fst p], YText [snd p])) l).
Proof.
  intros S N L. assert (E : open_configuation safe_load file_content python2 a = load safe_load text) by (apply stands_open, S).
  rewrite E. unfold load. rewrite L. unfold update. cbn [elements].
  assert (G : forall l d, NoDup (map fst d ++ map (fun p => YText [fst p]) l) -> update_pairs d (map (fun p => YText [fst p; snd p]) l) = inr (d ++ map (fun p : ascii * ascii => (YText [fst p], YText [snd p])) l)).
  { clear. induction l as [|(x, y) l IH]; intros d N; [cbn; now rewrite app_nil_r|]. cbn [map update_pairs elements fst snd hashable]. rewrite insert_new.
    - rewrite IH by (rewrite map_app, <- app_assoc; exact N). rewrite <- app_assoc. reflexivity.
    - cbn [map fst] in N. apply NoDup_remove_2 in N. intros I. apply N, in_or_app. left. exact I. }
  rewrite (G l []); [reflexivity|]. cbn [app map]. clear -N. induction l as [|(x, y) l IH]; [constructor|]. cbn [map fst] in *. inversion N as [|? ? A B]; subst. constructor; [|apply IH, B].
  intros I. apply A. apply in_map_iff in I. destruct I as ((u, v) & Q & I). injection Q as ->. apply in_map_iff. exists (x, v). split; [reflexivity|exact I].
Qed.

(** An empty document and a number are a TypeError; arguments of another kind are a ValueError in Python 2 and a NameError in Python 3. *)
Theorem C145_rejected safe_load file_content python2 a text : stands_for file_content a text -> 
  (safe_load text = Some YNull -> open_configuation safe_load file_content python2 a = inl TypeError) /\ (forall z, safe_load text = Some (YNumber z) -> open_configuation safe_load file_content python2 a = inl TypeError) /\
  open_configuation safe_load file_content python2 Other = inl (if python2 then ValueError else NameError).
Proof.
  intros S. rewrite (stands_open safe_load file_content python2 a text S). unfold load. split; [intros ->; reflexivity|]. split; [intros z ->; reflexivity|]. destruct python2; reflexivity.
Qed.
(** the key and the value of an entry of a sequence *)
Inductive pair_of : yaml -> yaml -> yaml -> Prop :=
| pair_text a b : pair_of (YText [a; b]) (YText [a]) (YText [b])
| pair_list k v : pair_of (YList [k; v]) k v
| pair_map k v u w : pair_of (YMap [(k, u); (v, w)]) k v.
(** the value which belongs to a key: that of the last entry with this key *)
Definition last_value (ps : list (yaml * yaml)) (k : yaml) (v : option yaml) : Prop :=
  match v with None => ~ In k (map fst ps) | Some v => exists before after, ps = before ++ (k, v) :: after /\ ~ In k (map fst after) end.
Lemma pair_elements y k v : pair_of y k v -> elements y = Some [k; v].
Proof. intros []; reflexivity. Qed.
Lemma key_neq a b : a <> b -> key_eqb a b = false.
Proof. intros N. destruct (key_eqb a b) eqn:E; [apply key_eq in E; contradiction|reflexivity]. Qed.
Lemma get_insert k v d k' : hashable k = true -> get k' (insert k v d) = if key_eqb k' k then Some v else get k' d.
Proof.
  intros H. induction d as [|(a, x) d IH]; cbn [insert get]; [destruct (key_eqb k' k); reflexivity|]. destruct (key_eqb k a) eqn:E.
  - apply key_eq in E. subst a. cbn [get]. destruct (key_eqb k' k); reflexivity.
  - cbn [get]. rewrite IH. destruct (key_eqb k' a) eqn:F; [|reflexivity]. apply key_eq in F. subst a. destruct (key_eqb k' k) eqn:G; [|reflexivity]. apply key_eq in G. subst k'. rewrite key_refl in E by exact H. discriminate.
Qed.
Lemma pairs_spec ys ps rest d : Forall2 (fun y p => pair_of y (fst p) (snd p) /\ hashable (fst p) = true) ys ps -> update_pairs d (ys ++ rest) = update_pairs (fold_left (fun d kv => insert (fst kv) (snd kv) d) ps d) rest.
Proof.
  intros F. revert d. induction F as [|y (k, v) ys ps (P & H) F IH]; intros d; [reflexivity|]. cbn [app update_pairs fold_left fst snd] in *. rewrite (pair_elements _ _ _ P), H. apply IH.
Qed.
Lemma get_all ps : (forall k, In k (map fst ps) -> hashable k = true) -> forall k, hashable k = true -> last_value ps k (get k (fold_left (fun d kv => insert (fst kv) (snd kv) d) ps [])).
Proof.
  intros H k Hk. induction ps as [|(a, x) ps IH] using rev_ind; [intros []|]. rewrite fold_left_app. cbn [fold_left fst snd]. assert (Ha : hashable a = true) by (apply H; rewrite map_app; apply in_or_app; right; left; reflexivity).
  rewrite get_insert by exact Ha. destruct (key_eqb k a) eqn:E.
  - apply key_eq in E. subst a. exists ps, []. split; [reflexivity|intros []].
  - assert (N : k <> a) by (intros ->; rewrite key_refl in E by exact Ha; discriminate). assert (IH' := IH ltac:(intros k' I; apply H; rewrite map_app; apply in_or_app; left; exact I)). unfold last_value in *. destruct (get k _) as [v|].
    + destruct IH' as (b & c & -> & C). exists b, (c ++ [(a, x)]). rewrite <- app_assoc. split; [reflexivity|]. rewrite map_app. intros I. apply in_app_or in I. destruct I as [I|[I|[]]]; [apply C, I|]. cbn in I. congruence.
    + rewrite map_app. intros I. apply in_app_or in I. destruct I as [I|[I|[]]]; [apply IH', I|]. cbn in I. congruence.
Qed.
(** A document which is a sequence: if each entry has two elements (text of two characters, list of two values or mapping with two keys) whose first is hashable, these are the keys and values, the last value of a key counts;
    otherwise the first other entry decides the exception. *)
Theorem C145_sequence safe_load file_content python2 a text ys ps rest : stands_for file_content a text -> safe_load text = Some (YList (ys ++ rest)) ->
  Forall2 (fun y p => pair_of y (fst p) (snd p) /\ hashable (fst p) = true) ys ps ->
  (rest = [] -> exists d, open_configuation safe_load file_content python2 a = inr d /\ forall k, hashable k = true -> last_value ps k (get k d)) /\
  (forall y more, rest = y :: more ->
     ((y = YNull \/ exists z, y = YNumber z) -> open_configuation safe_load file_content python2 a = inl TypeError) /\
     (forall k v, pair_of y k v -> hashable k = false -> open_configuation safe_load file_content python2 a = inl TypeError) /\
     (y <> YNull -> (forall z, y <> YNumber z) -> (forall k v, ~ pair_of y k v) -> open_configuation safe_load file_content python2 a = inl ValueError)).
Proof.
  intros S L F. rewrite (stands_open safe_load file_content python2 a text S). unfold load. rewrite L. unfold update. cbn [elements]. rewrite (pairs_spec ys ps rest [] F). split.
  - intros ->. cbn [update_pairs]. eexists. split; [reflexivity|]. apply get_all. clear -F. induction F as [|y (k, v) ys ps (_ & H) F IH]; intros q; [intros []|]. cbn. intros [<-|I]; [exact H|apply IH, I].
  - intros y more ->. cbn [update_pairs]. split; [intros [->|(z & ->)]; reflexivity|]. split; [intros k v P H; rewrite (pair_elements _ _ _ P), H; reflexivity|].
    intros N1 N2 N3. destruct y as [|z|s|l|m]; cbn [elements]; [congruence|destruct (N2 z); reflexivity| | |].
    + destruct s as [|c1 [|c2 [|c3 s]]]; cbn [map]; try reflexivity. destruct (N3 (YText [c1]) (YText [c2])). constructor.
    + destruct l as [|c1 [|c2 [|c3 l]]]; try reflexivity. destruct (N3 c1 c2). constructor.
    + destruct m as [|(k1, u1) [|(k2, u2) [|c3 m]]]; cbn [map fst]; try reflexivity. destruct (N3 k1 k2). constructor.
Qed.
(** Non-vacuity: a list with the pairs (a, 1), (b, 2) and (a, 3): the key a has the value 3. *)
Example C145_sequence_case : let k c := YText [c] in let ps := [(k "a"%char, YNumber 1); (k "b"%char, YNumber 2); (k "a"%char, YNumber 3)] in
  Forall2 (fun y p => pair_of y (fst p) (snd p) /\ hashable (fst p) = true) (map (fun p => YList [fst p; snd p]) ps) ps /\ last_value ps (k "a"%char) (Some (YNumber 3)).
Proof. cbv zeta. split; [repeat constructor|]. exists [(YText ["a"%char], YNumber 1); (YText ["b"%char], YNumber 2)], []. split; [reflexivity|intros []]. Qed.

Lemma lines_plain c t rest : ~ In newline t -> lines c (t ++ newline :: rest) = (c ++ t) :: lines [] rest.
Proof.
  revert c. induction t as [|a t IH]; intros c N; cbn [app lines].
  - destruct (ascii_dec newline newline); [rewrite app_nil_r; reflexivity|congruence].
  - destruct (ascii_dec a newline) as [->|_]; [destruct N; left; reflexivity|]. rewrite IH by (intros I; apply N; right; exact I). rewrite <- app_assoc. reflexivity.
Qed.
Lemma lines_last c t : ~ In newline t -> lines c t = [c ++ t].
Proof.
  revert c. induction t as [|a t IH]; intros c N; cbn [lines]; [now rewrite app_nil_r|]. destruct (ascii_dec a newline) as [->|_]; [destruct N; left; reflexivity|]. rewrite IH by (intros I; apply N; right; exact I). rewrite <- app_assoc. reflexivity.
Qed.
Lemma join_step s duts : s <> [] -> fold_left (fun s t => (match s with [] => s | _ => s ++ [newline] end) ++ t) duts s = s ++ flat_map (fun t => newline :: t) duts.
Proof.
  revert s. induction duts as [|t duts IH]; intros s N; cbn [fold_left flat_map]; [now rewrite app_nil_r|]. destruct s as [|c s]; [congruence|]. rewrite IH; [|destruct s; discriminate]. rewrite <- !app_assoc. reflexivity.
Qed.
Lemma lines_flat duts rest : Forall plain duts -> ~ In newline rest -> forall c, lines c (flat_map (fun t => newline :: t) duts ++ newline :: rest) = c :: duts ++ [rest].
Proof.
  intros F R. induction F as [|t duts (_ & P) F IH]; intros c; cbn [flat_map app].
  - change (newline :: rest) with ([] ++ newline :: rest). rewrite (lines_plain c [] rest) by intros []. rewrite app_nil_r, (lines_last [] rest R). reflexivity.
  - change (newline :: (t ++ flat_map (fun t => newline :: t) duts) ++ newline :: rest) with ([] ++ newline :: (t ++ flat_map (fun t => newline :: t) duts) ++ newline :: rest). rewrite lines_plain by intros []. rewrite app_nil_r. f_equal.
    rewrite <- app_assoc. specialize (IH t). clear - IH P. assert (G : forall t c u, ~ In newline t -> lines c (t ++ u) = lines (c ++ t) u).
    { clear. induction t as [|a t IH]; intros c u N; [now rewrite app_nil_r|]. cbn [app lines]. destruct (ascii_dec a newline) as [->|_]; [destruct N; left; reflexivity|]. rewrite IH by (intros I; apply N; right; exact I). rewrite <- app_assoc. reflexivity. }
    rewrite G by exact P. exact IH.
Qed.
Lemma join_has t l : In t l -> exists u w, join_comma l = u ++ t ++ w.
Proof.
  induction l as [|x l IH]; intros H; [destruct H|]. destruct l as [|y l].
  - destruct H as [<-|[]]. exists [], []. cbn. now rewrite app_nil_r.
  - change (join_comma (x :: y :: l)) with (x ++ list_ascii_of_string ", " ++ join_comma (y :: l)). destruct H as [<-|H].
    + exists []. eexists. reflexivity.
    + destruct (IH H) as (u & w & E). rewrite E. exists (x ++ list_ascii_of_string ", " ++ u), w. rewrite <- !app_assoc. reflexivity.
Qed.
(** The text of a telescope has one line for each DUT, in this order, and a last line which starts with "Telescope: " and has the name and value of each attribute.  (The text of a telescope without DUTs starts with an empty line.) *)
Theorem C145_lines duts attributes : Forall plain duts -> (forall n v, In (n, v) attributes -> ~ In newline n /\ ~ In newline v) ->
  exists last, lines [] (telescope_str duts attributes) = (match duts with [] => [[]] | _ => duts end) ++ [last] /\ (exists rest, last = list_ascii_of_string "Telescope: " ++ rest) /\
    forall n v, In (n, v) attributes -> exists before after, last = before ++ n ++ list_ascii_of_string ": " ++ v ++ after.
Proof.
  intros F A. set (last := list_ascii_of_string "Telescope: " ++ join_comma (map (fun nv => fst nv ++ list_ascii_of_string ": " ++ snd nv) attributes) ++ list_ascii_of_string ":").
  assert (Ns : forall s, forallb (fun c => negb (Ascii.eqb c newline)) s = true -> ~ In newline s).
  { intros s H I. rewrite forallb_forall in H. specialize (H _ I). rewrite Ascii.eqb_refl in H. discriminate. }
  assert (Nj : forall l, (forall t, In t l -> ~ In newline t) -> ~ In newline (join_comma l)).
  { induction l as [|t l IH]; intros H; [intros []|]. destruct l as [|u l]; [apply H; left; reflexivity|]. change (join_comma (t :: u :: l)) with (t ++ list_ascii_of_string ", " ++ join_comma (u :: l)). rewrite !in_app_iff. intros [I|[I|I]].
    - exact (H t (or_introl eq_refl) I).
    - revert I. apply Ns. reflexivity.
    - revert I. apply IH. intros x X. apply H. right. exact X. }
  assert (Nl : ~ In newline last).
  { unfold last. rewrite !in_app_iff. intros [I|[I|I]]; [revert I; apply Ns; reflexivity| |revert I; apply Ns; reflexivity]. revert I. apply Nj. intros t T. apply in_map_iff in T. destruct T as ((n, v) & <- & T). destruct (A n v T) as (A1 & A2). cbn [fst snd].
    rewrite !in_app_iff. intros [I|[I|I]]; [exact (A1 I)|revert I; apply Ns; reflexivity|exact (A2 I)]. }
  exists last. split; [|split; [eexists; reflexivity|]].
  2:{ intros n v H. destruct (join_has (n ++ list_ascii_of_string ": " ++ v) (map (fun nv => fst nv ++ list_ascii_of_string ": " ++ snd nv) attributes)) as (u & w & E); [apply in_map_iff; exists (n, v); split; [reflexivity|exact H]|].
    unfold last. rewrite E. exists (list_ascii_of_string "Telescope: " ++ u), (w ++ list_ascii_of_string ":"). rewrite <- !app_assoc. reflexivity. }
  change (telescope_str duts attributes) with (join_duts duts ++ newline :: last). destruct F as [|t duts (Tn & Tp) F].
  - change (join_duts [] ++ newline :: last) with ([] ++ newline :: last). rewrite lines_plain by intros []. rewrite (lines_last [] last Nl). reflexivity.
  - unfold join_duts. cbn [fold_left app]. rewrite join_step by exact Tn. rewrite <- app_assoc.
    assert (G : forall t c u, ~ In newline t -> lines c (t ++ u) = lines (c ++ t) u).
    { clear. induction t as [|a t IH]; intros c u N; [now rewrite app_nil_r|]. cbn [app lines]. destruct (ascii_dec a newline) as [->|_]; [destruct N; left; reflexivity|]. rewrite IH by (intros I; apply N; right; exact I). rewrite <- app_assoc. reflexivity. }
    rewrite G by exact Tp. rewrite (lines_flat duts last F Nl). reflexivity.
Qed.

(** * Concrete cases *)
(** A file "t" with the mapping of one entry, and the text of a telescope with two DUTs. *)
Example C145_case : let content := list_ascii_of_string "a: 1" in let m := [(YText (list_ascii_of_string "a"), YNumber 1)] in
  let files := fun s => if list_eq_dec ascii_dec s (list_ascii_of_string "t") then Some content else None in
  let load := fun s => if list_eq_dec ascii_dec s content then Some (YMap m) else Some (YText s) in
  open_configuation load files false (Text (list_ascii_of_string "t")) = inr m /\ open_configuation load files false (Text content) = inr m /\ open_configuation load files false (Text (list_ascii_of_string "u")) = inl ValueError /\ is_mapping m.
Proof. cbv zeta. split; [reflexivity|]. split; [reflexivity|]. split; [reflexivity|]. split; [constructor; [intros []|constructor]|]. intros k [<-|[]]. reflexivity. Qed.
Example C145_lines_case : lines [] (telescope_str [list_ascii_of_string "DUT0"; list_ascii_of_string "DUT1"] [(list_ascii_of_string "translation_x", list_ascii_of_string "0.0")]) =
  [list_ascii_of_string "DUT0"; list_ascii_of_string "DUT1"; list_ascii_of_string "Telescope: translation_x: 0.0:"].
Proof. vm_compute. reflexivity. Qed.

Print Assumptions C145_loaded.
Print Assumptions C145_empty.
Print Assumptions C145_dict_refuted.
Print Assumptions C145_missing_refuted.
Print Assumptions C145_pairs_refuted.
Print Assumptions C145_rejected.
Print Assumptions C145_sequence.
Print Assumptions C145_lines.
