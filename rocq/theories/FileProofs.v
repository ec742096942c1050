(** FileProofs.v — proofs about the file layout (C01, C02, C03, C08). *)
From Verif Require Import Base FileModel FileSpec.

(** ** Closed form of the output *)
Definition obj_bytes (o : Z -> wprog) (id : Z) : bytes :=
  fmt_d id ++ bs " 0 obj" ++ [NL] ++ prog_bytes (o id) ++ bs "endobj" ++ [NL; NL].

Fixpoint objs_bytes (objs : list (Z -> wprog)) (id : Z) : bytes :=
  match objs with [] => [] | o :: r => obj_bytes o id ++ objs_bytes r (id + 1) end.

Fixpoint objs_offsets (objs : list (Z -> wprog)) (id off : Z) : list Z :=
  match objs with [] => [] | o :: r => off :: objs_offsets r (id + 1) (off + zlen (obj_bytes o id)) end.

Lemma run_keep_all p : forall off log,
  run bytes keep_all p (off, log) = (off + zlen (prog_bytes p), log ++ prog_bytes p).
Proof.
  induction p as [|b k IH]; intros off log; cbn [run prog_bytes].
  - rewrite zlen_nil, app_nil_r, Z.add_0_r. reflexivity.
  - unfold cw_write, keep_all. rewrite IH, zlen_app, app_assoc. f_equal. lia.
Qed.

Lemma prog_bytes_chunks l : prog_bytes (chunks l) = List.concat l.
Proof. induction l as [|b r IH]; cbn; [reflexivity|now rewrite IH]. Qed.
Lemma prog_bytes_chunks_stop l : prog_bytes (chunks_stop l) = List.concat l.
Proof. induction l as [|b r IH]; cbn; [reflexivity|now rewrite IH]. Qed.

Lemma run_objs_keep_all objs : forall id off log,
  run_objs bytes keep_all objs id (off, log)
  = (objs_offsets objs id off, (off + zlen (objs_bytes objs id), log ++ objs_bytes objs id)).
Proof.
  induction objs as [|o r IH]; intros id off log; cbn [run_objs objs_offsets objs_bytes].
  - rewrite zlen_nil, app_nil_r, Z.add_0_r. reflexivity.
  - rewrite !run_keep_all, IH. rewrite !prog_bytes_chunks. cbn [List.concat fst].
    rewrite !app_nil_r. f_equal.
    + f_equal. f_equal. unfold obj_bytes. rewrite !zlen_app. lia.
    + f_equal.
      * unfold obj_bytes. rewrite !zlen_app. lia.
      * unfold obj_bytes. rewrite <- !app_assoc. reflexivity.
Qed.

Lemma compile_bytes_eq objs tr :
  let body := header ++ objs_bytes objs 1 in
  compilePdf bytes keep_all objs tr []
  = (body ++ List.concat (xref_chunks tr (zlen body) (objs_offsets objs 1 (zlen header)) (zlen objs)),
     (zlen (body ++ List.concat (xref_chunks tr (zlen body) (objs_offsets objs 1 (zlen header)) (zlen objs))), false)).
Proof.
  cbn zeta. unfold compilePdf. rewrite run_keep_all, prog_bytes_chunks.
  cbn [List.concat]. rewrite app_nil_r, app_nil_l, Z.add_0_l, run_objs_keep_all.
  cbn [fst]. rewrite <- zlen_app, run_keep_all, prog_bytes_chunks, <- zlen_app.
  rewrite <- app_assoc. reflexivity.
Qed.

(** ** Reader lemmas *)
Lemma is_prefix_app p r : is_prefix p (p ++ r) = true.
Proof. induction p as [|x p IH]; cbn; [reflexivity|]. rewrite Z.eqb_refl. exact IH. Qed.
Lemma expect_app p r : expect p (p ++ r) = Some r.
Proof. unfold expect. now rewrite is_prefix_app, skipn_app_exact. Qed.

Lemma expect_app3 a b c r : expect (a ++ b ++ c) (a ++ b ++ c ++ r) = Some r.
Proof. rewrite (app_assoc b c r), (app_assoc a (b ++ c) r). apply expect_app. Qed.

Lemma take_digits_app ds r : forallb is_digit ds = true ->
  match r with [] => True | x :: _ => is_digit x = false end ->
  take_digits (ds ++ r) = (ds, r).
Proof.
  intros H Hr. induction ds as [|d ds IH].
  - cbn. destruct r as [|x r]; [reflexivity|]. cbn. now rewrite Hr.
  - cbn [forallb] in H. apply andb_true_iff in H as [H1 H2]. cbn [app take_digits].
    rewrite H1, IH by assumption. reflexivity.
Qed.

Lemma fmt_d_nonneg n : 0 <= n -> fmt_d n = dec n.
Proof. intros H. unfold fmt_d. destruct (Z.ltb_spec n 0); [lia|reflexivity]. Qed.

Lemma read_num_dec n r : 0 <= n ->
  match r with [] => True | x :: _ => is_digit x = false end ->
  read_num (dec n ++ r) = Some (n, r).
Proof.
  intros Hn Hr. unfold read_num. rewrite take_digits_app; auto using dec_digits.
  destruct (dec n) as [|d ds] eqn:E; [now apply dec_nonempty in E|].
  rewrite <- E, dec_val by lia. reflexivity.
Qed.

Lemma forallb_rev {A} (f : A -> bool) l : forallb f (rev l) = forallb f l.
Proof.
  induction l as [|x l IH]; cbn; [reflexivity|].
  rewrite forallb_app, IH. cbn. destruct (f x), (forallb f l); reflexivity.
Qed.

Lemma read_startxref_ok pre n : 0 <= n ->
  read_startxref (pre ++ bs "startxref" ++ [NL] ++ dec n ++ [NL] ++ bs "%%EOF" ++ [NL]) = Some n.
Proof.
  intros Hn. unfold read_startxref.
  replace (rev (pre ++ bs "startxref" ++ [NL] ++ dec n ++ [NL] ++ bs "%%EOF" ++ [NL]))
    with (rev ([NL] ++ bs "%%EOF" ++ [NL]) ++ rev (dec n) ++ rev (bs "startxref" ++ [NL]) ++ rev pre).
  2:{ rewrite (app_assoc (bs "startxref")).
      rewrite (rev_app_distr pre), (rev_app_distr (_ ++ _) (dec n ++ _)), (rev_app_distr (dec n)).
      rewrite <- !app_assoc. reflexivity. }
  rewrite expect_app, take_digits_app.
  - destruct (rev (dec n)) as [|d ds] eqn:E.
    + apply (f_equal (@rev Z)) in E. rewrite rev_involutive in E. now apply dec_nonempty in E.
    + rewrite expect_app, <- E, rev_involutive, dec_val by assumption. reflexivity.
  - rewrite forallb_rev. now apply dec_digits.
  - reflexivity.
Qed.

Lemma zlen_eq_len {A} (l : list A) n : List.length l = n -> zlen l = Z.of_nat n.
Proof. intros <-. reflexivity. Qed.

Lemma read_entry_ok n : 0 <= n < 10 ^ 10 ->
  read_entry (formatXrefline n ++ bs " 00000 n " ++ [NL])
  = Some {| xe_offset := n; xe_gen := 0; xe_inuse := true |}.
Proof.
  intros Hn. unfold formatXrefline. rewrite fmt_d_nonneg by lia.
  set (p := pad_left 10 (dec n)).
  assert (L : List.length p = 10%nat).
  { apply pad_left_len. apply dec_len; try lia. }
  assert (D : forallb is_digit p = true) by (apply pad_left_digits, dec_digits; lia).
  assert (V : digits_val p = n) by (unfold p; rewrite pad_left_val, dec_val; lia).
  clearbody p.
  destruct p as [|p0 [|p1 [|p2 [|p3 [|p4 [|p5 [|p6 [|p7 [|p8 [|p9 [|p10 p]]]]]]]]]]]; try discriminate L.
  unfold read_entry. cbn [app firstn skipn nth bs]. rewrite D.
  cbn -[digits_val forallb is_digit]. rewrite V. reflexivity.
Qed.

Lemma entry_len n : 0 <= n < 10 ^ 10 ->
  List.length (formatXrefline n ++ bs " 00000 n " ++ [NL]) = 20%nat.
Proof.
  intros Hn. unfold formatXrefline. rewrite fmt_d_nonneg, app_length, pad_left_len by (try apply dec_len; lia).
  reflexivity.
Qed.

Lemma read_entries_ok offs r : Forall (fun n => 0 <= n < 10 ^ 10) offs ->
  read_entries (List.length offs)
    (List.concat (map (fun n => formatXrefline n ++ bs " 00000 n " ++ [NL]) offs) ++ r)
  = Some (map (fun n => {| xe_offset := n; xe_gen := 0; xe_inuse := true |}) offs, r).
Proof.
  induction 1 as [|n offs Hn _ IH]; [reflexivity|].
  cbn [List.length map List.concat read_entries]. rewrite <- app_assoc.
  rewrite (firstn_app_len 20), (skipn_app_len 20) by (now rewrite entry_len).
  rewrite read_entry_ok, IH by assumption. reflexivity.
Qed.

(** ** Offsets *)
Lemma objs_offsets_len objs : forall id off, List.length (objs_offsets objs id off) = List.length objs.
Proof. induction objs; intros; cbn; auto. Qed.

Lemma objs_offsets_range objs : forall id off, 0 <= off ->
  Forall (fun n => 0 <= n <= off + zlen (objs_bytes objs id)) (objs_offsets objs id off).
Proof.
  induction objs as [|o r IH]; intros id off H; cbn [objs_offsets objs_bytes]; constructor.
  - rewrite zlen_app. pose proof (zlen_nonneg (obj_bytes o id)); pose proof (zlen_nonneg (objs_bytes r (id+1))). lia.
  - pose proof (zlen_nonneg (obj_bytes o id)).
    eapply Forall_impl; [|apply (IH (id+1) (off + zlen (obj_bytes o id))); lia].
    cbn beta. intros a Ha. rewrite zlen_app. lia.
Qed.

Lemma objs_offsets_nth objs : forall id off k o,
  nth_error objs k = Some o ->
  exists pre post,
    objs_bytes objs id = pre ++ obj_bytes o (id + Z.of_nat k) ++ post /\
    nth_error (objs_offsets objs id off) k = Some (off + zlen pre).
Proof.
  induction objs as [|o' r IH]; intros id off [|k] o H; try discriminate; cbn [nth_error] in H.
  - injection H as ->. exists [], (objs_bytes r (id + 1)). cbn. rewrite !Z.add_0_r. split; reflexivity.
  - destruct (IH (id + 1) (off + zlen (obj_bytes o' id)) k o H) as (pre & post & E1 & E2).
    exists (obj_bytes o' id ++ pre), post. cbn [objs_bytes objs_offsets nth_error].
    rewrite E1, E2, zlen_app, <- app_assoc.
    replace (id + 1 + Z.of_nat k) with (id + Z.of_nat (S k)) by lia.
    split; [reflexivity|]. f_equal. lia.
Qed.

(** ** C01 *)
Lemma skipn_zlen {A} (pre post : list A) : skipn (Z.to_nat (zlen pre)) (pre ++ post) = post.
Proof. apply skipn_app_len. unfold zlen. lia. Qed.

Definition trailer_tail (tr : trailer) : bytes :=
  List.concat (match tr_encrypt tr with
     | Some id => [ bs "/Encrypt " ++ fmt_d id ++ bs " 0 R" ++ [NL]; bs "/ID [()()]" ++ [NL] ]
     | None => [] end ++ match tr_info tr with Some l => l | None => [] end)
  ++ bs ">>" ++ [NL].

Lemma xref_concat tr xo offs i : 0 <= i -> 0 <= xo ->
  List.concat (xref_chunks tr xo offs i)
  = bs "xref" ++ [NL] ++ bs "0 " ++ dec (i + 1) ++ [NL]
    ++ (bs "0000000000 65535 f " ++ [NL])
    ++ List.concat (map (fun n => formatXrefline n ++ bs " 00000 n " ++ [NL]) offs)
    ++ (bs "trailer" ++ [NL] ++ bs "<<" ++ [NL] ++ bs "/Size ") ++ dec (zlen offs + 1) ++ [NL]
    ++ bs "/Root 1 0 R" ++ [NL] ++ trailer_tail tr
    ++ bs "startxref" ++ [NL] ++ dec xo ++ [NL] ++ bs "%%EOF" ++ [NL].
Proof.
  intros Hi Hxo. unfold xref_chunks, trailer_tail.
  rewrite !fmt_d_nonneg by (pose proof (zlen_nonneg offs); lia).
  rewrite !concat_app. cbn [List.concat].
  repeat rewrite app_nil_r. repeat rewrite <- app_assoc. reflexivity.
Qed.

Theorem file_well_formed objs tr :
  zlen (compile_bytes objs tr) < 10 ^ 10 ->
  well_formed_file (compile_bytes objs tr)
    (map (fun '(k, o) => prog_bytes (o k)) (combine (map (fun n => Z.of_nat n + 1) (seq 0 (List.length objs))) objs)).
Proof.
  unfold compile_bytes. rewrite compile_bytes_eq. cbn [fst].
  set (body := header ++ objs_bytes objs 1).
  set (offs := objs_offsets objs 1 (zlen header)).
  set (bodies := map _ (combine _ _)).
  intros Hlen.
  assert (Lb : zlen bodies = zlen objs).
  { unfold zlen, bodies. rewrite map_length, combine_length, map_length, seq_length. lia. }
  assert (Lo : zlen offs = zlen objs) by (unfold zlen, offs; now rewrite objs_offsets_len).
  pose proof (zlen_nonneg objs) as Ho. pose proof (zlen_nonneg body) as Hb.
  assert (Hbody : zlen body < 10 ^ 10).
  { rewrite zlen_app in Hlen. pose proof (zlen_nonneg (List.concat (xref_chunks tr (zlen body) offs (zlen objs)))). lia. }
  rewrite xref_concat by lia. clear Hlen.
  assert (Hoffs : Forall (fun n => 0 <= n < 10 ^ 10) offs).
  { eapply Forall_impl; [|apply objs_offsets_range; apply zlen_nonneg].
    cbn beta. intros a Ha. unfold body in Hbody. rewrite zlen_app in Hbody. lia. }
  exists (zlen body),
    ({| xe_offset := 0; xe_gen := 65535; xe_inuse := false |}
     :: map (fun n => {| xe_offset := n; xe_gen := 0; xe_inuse := true |}) offs).
  split; [|split; [|split; [|split]]].
  - remember (bs "startxref" ++ [NL] ++ dec (zlen body) ++ [NL] ++ bs "%%EOF" ++ [NL]) as T eqn:ET.
    repeat rewrite app_assoc. rewrite ET. now apply read_startxref_ok.
  - unfold read_xref. destruct (Z.ltb_spec (zlen body) 0) as [|_]; [lia|].
    rewrite skipn_zlen.
    rewrite expect_app3.
    rewrite read_num_dec by (try lia; reflexivity).
    rewrite expect_app.
    replace (Z.to_nat (zlen objs + 1)) with (S (List.length offs)) by (unfold zlen in Lo |- *; lia).
    cbn [read_entries].
    rewrite (firstn_app_len 20), (skipn_app_len 20) by reflexivity.
    rewrite read_entries_ok by assumption.
    change (read_entry (bs "0000000000 65535 f " ++ [NL]))
      with (Some {| xe_offset := 0; xe_gen := 65535; xe_inuse := false |}).
    cbn match. rewrite expect_app.
    rewrite read_num_dec by (try lia; reflexivity).
    rewrite Lo, Lb. reflexivity.
  - rewrite zlen_cons. unfold zlen at 1. rewrite map_length. fold (zlen offs). lia.
  - reflexivity.
  - intros k b Hk.
    assert (Hk' : exists o, nth_error objs k = Some o /\ b = prog_bytes (o (Z.of_nat k + 1))).
    { unfold bodies in Hk. rewrite nth_error_map in Hk.
      destruct (nth_error (combine _ objs) k) as [[z o]|] eqn:E; [|discriminate].
      injection Hk as <-. clear - E.
      assert (G : forall (l : list (Z -> wprog)) s k z o,
        nth_error (combine (map (fun n => Z.of_nat n + 1) (seq s (List.length l))) l) k = Some (z, o) ->
        nth_error l k = Some o /\ z = Z.of_nat (s + k) + 1).
      { clear. induction l as [|x l IH]; intros s [|k] z o H; cbn in H; try discriminate.
        - injection H as <- <-. split; [reflexivity|]. f_equal. lia.
        - apply IH in H as [H1 H2]. split; [exact H1|]. subst z. lia. }
      apply G in E as [E1 ->]. exists o. split; [exact E1|]. f_equal. }
    destruct Hk' as (o & Eo & ->).
    destruct (objs_offsets_nth objs 1 (zlen header) k o Eo) as (pre & post & E1 & E2).
    exists (zlen header + zlen pre). split.
    + cbn [nth_error]. rewrite nth_error_map. fold offs in E2. rewrite E2. reflexivity.
    + split; [pose proof (zlen_nonneg header); pose proof (zlen_nonneg pre); lia|].
      unfold body. rewrite E1. rewrite <- zlen_app. eexists.
      rewrite <- (app_assoc header), <- (app_assoc pre), (app_assoc header pre), skipn_zlen.
      unfold obj_bytes. rewrite fmt_d_nonneg by lia. rewrite (Z.add_comm 1).
      rewrite <- !app_assoc. reflexivity.
Qed.

(** ** C02 / C03 *)
Lemma firstn_zlen n (b : bytes) : 0 <= n <= zlen b -> zlen (firstn (Z.to_nat n) b) = n.
Proof. unfold zlen. intros H. rewrite firstn_length. lia. Qed.

Section Count.
  Context {W : Type} (wr : W -> bytes -> W * (Z * bool)) (Hwr : writer_ok wr).
  Let counted (s : Z * (W * (bytes * bool))) : Prop := fst s = zlen (fst (snd (snd s))).

  Lemma run_counted p : forall s, counted s -> counted (run _ (observed wr) p s).
  Proof.
    induction p as [|b k IH]; intros [off [w [acc f]]] H; [exact H|].
    cbn [run]. unfold cw_write. cbn [observed].
    pose proof (Hwr w b) as Hb. destruct (wr w b) as [w' [n e]]. apply IH.
    unfold counted in *. cbn [fst snd] in *. rewrite zlen_app, firstn_zlen by tauto. lia.
  Qed.
  Lemma run_objs_counted objs : forall id s, counted s -> counted (snd (run_objs _ (observed wr) objs id s)).
  Proof.
    induction objs as [|o r IH]; intros id s H; [exact H|].
    cbn [run_objs]. destruct (run_objs _ _ r _ _) as [offs s4] eqn:E. cbn [snd].
    replace s4 with (snd (run_objs _ (observed wr) r (id + 1)
         (run _ (observed wr) (chunks [bs "endobj" ++ [NL; NL]])
           (run _ (observed wr) (o id) (run _ (observed wr) (chunks [fmt_d id ++ bs " 0 obj" ++ [NL]]) s)))))
      by (now rewrite E).
    apply IH. do 3 apply run_counted. exact H.
  Qed.

  Theorem compile_counts objs tr w :
    let '((_, (accepted, _)), (n, _)) := compilePdf _ (observed wr) objs tr (w, ([], false)) in
    n = zlen accepted.
  Proof.
    unfold compilePdf.
    assert (H0 : counted (run _ (observed wr) (chunks [header]) (0, (w, ([], false)))))
      by (apply run_counted; reflexivity).
    pose proof (run_objs_counted objs 1 _ H0) as H1.
    destruct (run_objs _ _ objs 1 _) as [offs s1]. cbn [snd] in H1.
    pose proof (run_counted (chunks (xref_chunks tr (fst s1) offs (zlen objs))) _ H1) as H2.
    destruct (run _ _ _ s1) as [off [w' [acc f]]]. exact H2.
  Qed.
End Count.

(** A writer that never fails receives the whole document. *)
Lemma run_no_error {W} (wr : W -> bytes -> W * (Z * bool)) (Hwr : writer_ok wr)
  (Hne : forall w b, snd (snd (wr w b)) = false) p : forall off w acc,
  exists w', run _ (observed wr) p (off, (w, (acc, false)))
             = (off + zlen (prog_bytes p), (w', (acc ++ prog_bytes p, false))).
Proof.
  induction p as [|b k IH]; intros off w acc; cbn [run prog_bytes].
  - exists w. rewrite zlen_nil, app_nil_r, Z.add_0_r. reflexivity.
  - unfold cw_write, observed at 1. pose proof (Hwr w b) as Hb. pose proof (Hne w b) as Hn.
    destruct (wr w b) as [w1 [n e]]. cbn [snd] in Hn. subst e.
    assert (n = zlen b) by (destruct Hb as [Hb1 Hb2]; destruct (Z.lt_ge_cases n (zlen b)) as [L|L]; [specialize (Hb2 L); discriminate|lia]).
    subst n. cbn [orb]. destruct (IH (zlen b) false (off + zlen b) w1 (acc ++ firstn (Z.to_nat (zlen b)) b)) as [w' E].
    exists w'. rewrite E. rewrite zlen_app.
    replace (firstn (Z.to_nat (zlen b)) b) with b by (unfold zlen; rewrite Nat2Z.id; symmetry; apply firstn_all).
    rewrite app_assoc. f_equal. lia.
Qed.

Lemma run_objs_no_error {W} (wr : W -> bytes -> W * (Z * bool)) (Hwr : writer_ok wr)
  (Hne : forall w b, snd (snd (wr w b)) = false) objs : forall id off w acc,
  exists w', run_objs _ (observed wr) objs id (off, (w, (acc, false)))
   = (objs_offsets objs id off, (off + zlen (objs_bytes objs id), (w', (acc ++ objs_bytes objs id, false)))).
Proof.
  induction objs as [|o r IH]; intros id off w acc; cbn [run_objs objs_offsets objs_bytes].
  - exists w. rewrite zlen_nil, app_nil_r, Z.add_0_r. reflexivity.
  - destruct (run_no_error wr Hwr Hne (chunks [fmt_d id ++ bs " 0 obj" ++ [NL]]) off w acc) as [w1 E1].
    rewrite E1.
    destruct (run_no_error wr Hwr Hne (o id) (off + zlen (prog_bytes (chunks [fmt_d id ++ bs " 0 obj" ++ [NL]]))) w1
       (acc ++ prog_bytes (chunks [fmt_d id ++ bs " 0 obj" ++ [NL]]))) as [w2 E2].
    rewrite E2.
    match goal with |- context [run _ _ (chunks [bs "endobj" ++ [NL; NL]]) (?a, (?b, (?c, _)))] =>
      destruct (run_no_error wr Hwr Hne (chunks [bs "endobj" ++ [NL; NL]]) a b c) as [w3 E3] end.
    rewrite E3.
    match goal with |- context [run_objs _ _ r ?i (?a, (?b, (?c, _)))] =>
      destruct (IH i a b c) as [w4 E4] end.
    rewrite E4. exists w4. rewrite !prog_bytes_chunks. cbn [List.concat fst].
    rewrite !app_nil_r. f_equal.
    + f_equal. f_equal. unfold obj_bytes. rewrite !zlen_app. lia.
    + f_equal.
      * unfold obj_bytes. rewrite !zlen_app. lia.
      * unfold obj_bytes. rewrite <- !app_assoc. reflexivity.
Qed.

Theorem compile_complete {W} (wr : W -> bytes -> W * (Z * bool)) objs tr w :
  writer_ok wr -> (forall w b, snd (snd (wr w b)) = false) ->
  let '((_, (accepted, _)), (n, err)) := compilePdf _ (observed wr) objs tr (w, ([], false)) in
  accepted = compile_bytes objs tr /\ n = zlen (compile_bytes objs tr) /\ err = false.
Proof.
  intros Hwr Hne. unfold compile_bytes. rewrite compile_bytes_eq. cbn [fst]. unfold compilePdf.
  destruct (run_no_error wr Hwr Hne (chunks [header]) 0 w []) as [w1 E1]. rewrite E1.
  rewrite prog_bytes_chunks. cbn [List.concat]. rewrite app_nil_r, app_nil_l, Z.add_0_l.
  destruct (run_objs_no_error wr Hwr Hne objs 1 (zlen header) w1 header) as [w2 E2]. rewrite E2.
  cbn [fst]. rewrite <- zlen_app.
  match goal with |- context [run _ _ (chunks ?l) (?a, (?b, (?c, _)))] =>
      destruct (run_no_error wr Hwr Hne (chunks l) a b c) as [w3 E3] end.
  rewrite E3, prog_bytes_chunks, <- zlen_app. auto.
Qed.

(** compilePdf never reports an error, whatever the writer does. *)
Lemma compile_never_errs W (wr : W -> bytes -> W * (Z * bool)) objs tr w :
  snd (snd (compilePdf W wr objs tr w)) = false.
Proof.
  unfold compilePdf. destruct (run_objs _ _ _ _ _) as [offs s1]. destruct (run _ _ _ s1). reflexivity.
Qed.

(** ** C08: io.Reader *)
Fixpoint reads (doc : bytes) (b : buffer) (sizes : list nat) : buffer * list (bytes * bool) :=
  match sizes with
  | [] => (b, [])
  | n :: r => let '(b1, o) := gp_read doc b n in
              let '(b2, os) := reads doc b1 r in (b2, o :: os)
  end.

Lemma firstn_skipn_add {A} n m (l : list A) : firstn n l ++ firstn m (skipn n l) = firstn (n + m) l.
Proof.
  revert l; induction n as [|n IH]; intros l; [reflexivity|].
  destruct l as [|x l]; [cbn; now rewrite firstn_nil|]. cbn. f_equal. apply IH.
Qed.

Lemma skipn_add {A} n m (l : list A) : skipn (n + m) l = skipn m (skipn n l).
Proof.
  revert l; induction n as [|n IH]; intros l; [reflexivity|].
  destruct l as [|x l]; cbn; [now rewrite skipn_nil|apply IH].
Qed.

Lemma gp_read_alloc doc b n : bf_alloc b = true ->
  gp_read doc b n = buffer_read b n.
Proof. intros H. unfold gp_read. rewrite H. destruct (bf_data b); reflexivity. Qed.

Lemma reads_alloc doc sizes : forall b, bf_alloc b = true ->
  let '(b', os) := reads doc b sizes in
  bf_alloc b' = true /\
  List.concat (map fst os) = firstn (list_sum sizes) (bf_data b) /\
  bf_data b' = skipn (list_sum sizes) (bf_data b).
Proof.
  induction sizes as [|n r IH]; intros b Hb; [cbn; auto|].
  cbn [reads]. rewrite gp_read_alloc by assumption.
  destruct (buffer_read b n) as [b1 o] eqn:E.
  assert (H1 : bf_alloc b1 = true /\ fst o = firstn n (bf_data b) /\ bf_data b1 = skipn n (bf_data b)).
  { unfold buffer_read in E. destruct (bf_data b) as [|x d] eqn:D; injection E as <- <-; cbn [fst bf_alloc bf_data].
    - rewrite D, firstn_nil, skipn_nil. auto.
    - auto. }
  destruct H1 as (H1 & H2 & H3). specialize (IH b1 H1).
  destruct (reads doc b1 r) as [b2 os]. destruct IH as (I1 & I2 & I3).
  cbn [map fst List.concat list_sum fold_right]. fold (list_sum r).
  rewrite I2, I3, H2, H3. split; [exact I1|]. split; [apply firstn_skipn_add|].
  symmetry. apply skipn_add.
Qed.

(** EOF exactly when everything was delivered and something is asked for. *)
Lemma reads_eof doc sizes : forall b, bf_alloc b = true ->
  Forall2 (fun n (o : bytes * bool) => snd o = true -> fst o = [] /\ n <> 0%nat) sizes (snd (reads doc b sizes)).
Proof.
  induction sizes as [|n r IH]; intros b Hb; [constructor|].
  cbn [reads]. rewrite gp_read_alloc by assumption.
  destruct (buffer_read b n) as [b1 o] eqn:E.
  assert (H1 : bf_alloc b1 = true /\ (snd o = true -> fst o = [] /\ n <> 0%nat)).
  { unfold buffer_read in E. destruct (bf_data b) as [|x d] eqn:D; injection E as <- <-; cbn [fst snd bf_alloc].
    - split; [assumption|]. intros H. split; [reflexivity|]. destruct n; [discriminate|lia].
    - split; [assumption|discriminate]. }
  specialize (IH b1 (proj1 H1)). destruct (reads doc b1 r) as [b2 os]. cbn [snd]. constructor; tauto.
Qed.
