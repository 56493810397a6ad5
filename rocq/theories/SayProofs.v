(** Proofs on the process log and standard output. *)
From Coq Require Import Ascii String List Arith NArith Bool Lia.
From Verif Require Import StrModel StrProofs FramerModel FramerSpec FramerProofs WireProofs LogModel SayModel SaySpec.
Import ListNotations.
Local Open Scope nat_scope.

Lemma sent_app : forall a b, sent (a ++ b) = sent a ++ sent b.
Proof. induction a as [|v a IH]; intro b; [reflexivity|]. destruct v; cbn; rewrite ?IH; reflexivity. Qed.
Lemma logged_app : forall a b, logged (a ++ b) = logged a ++ logged b.
Proof. induction a as [|v a IH]; intro b; [reflexivity|]. destruct v; cbn; rewrite ?IH; reflexivity. Qed.

Lemma sayrun_snoc : forall c vs v, sayrun c (vs ++ [v]) = saystep c (sayrun c vs) v.
Proof. intros c vs v. unfold sayrun. rewrite fold_left_app. reflexivity. Qed.

Lemma shown_iff : forall t g, shown t g = true <-> at_least g t.
Proof. intros t g. destruct t, g; cbn; split; intro H; try exact I; try reflexivity; try discriminate H; contradiction. Qed.

Lemma mode_yes : forall c, stdio_mode c <-> to_stderr c = true.
Proof.
  intro c. unfold stdio_mode, to_stderr, yes. split.
  - intros [<- |[<- |[<- |[]]]]; reflexivity.
  - destruct (sy_mode c) as [v|]; cbn [env_or]; [|discriminate]. intro H. apply orb_prop in H. destruct H as [H|H].
    + apply orb_prop in H. destruct H as [H|H]; apply beq_eq in H; subst v; cbn; auto.
    + apply beq_eq in H. subst v. cbn. auto.
Qed.

(** Nothing but frames, when no entry is passed to std::cout. *)
Lemma only_frames : forall c vs,
  (to_stderr c = true \/ forall e, In e (logged vs) -> shown (sy_level c) (en_grade e) = false) ->
  sp_out (sayrun c vs) ++ sp_left (sayrun c vs) = concat (map encode (sent vs)) /\ sp_cout (sayrun c vs) = [].
Proof.
  intros c vs. induction vs as [|v vs IH] using rev_ind; intro H; [split; reflexivity|].
  assert (H' : to_stderr c = true \/ forall e, In e (logged vs) -> shown (sy_level c) (en_grade e) = false).
  { destruct H as [H|H]; [left; exact H|]. right. intros e I. apply H. rewrite logged_app. apply in_or_app. auto. }
  destruct (IH H') as (A & B). rewrite sayrun_snoc, sent_app. destruct v as [p|n|e|n]; cbn [saystep sent sp_out sp_left sp_cout].
  - rewrite map_app, concat_app, <- A, <- app_assoc. cbn. rewrite app_nil_r. auto.
  - rewrite <- app_assoc, firstn_skipn, app_nil_r. auto.
  - rewrite app_nil_r. destruct (shown (sy_level c) (en_grade e)) eqn:S; [|auto]. destruct H as [H|H].
    + rewrite H. cbn. auto.
    + rewrite H in S; [discriminate|]. rewrite logged_app. apply in_or_app. right. left. reflexivity.
  - rewrite B. cbn. rewrite firstn_nil, skipn_nil, !app_nil_r. auto.
Qed.

Lemma frames_read : forall c vs max chunks,
  (to_stderr c = true \/ forall e, In e (logged vs) -> shown (sy_level c) (en_grade e) = false) ->
  Forall (readable max) (sent vs) -> concat chunks = sp_out (sayrun c vs) ->
  exists ps1 ps2 r, sent vs = ps1 ++ ps2 /\ on_reads max reader0 chunks = Some (map Delivered ps1, r) /\ rx_connected r = true /\
    (sp_left (sayrun c vs) = [] -> ps2 = []).
Proof.
  intros c vs max chunks H F E. destruct (only_frames c vs H) as (A & _). rewrite <- E in A.
  destruct (prefix_any_chunking (sent vs) max chunks (sp_left (sayrun c vs)) F (eq_sym A)) as (ps1 & ps2 & r & P & R & C & Q & Z).
  exists ps1, ps2, r. split; [exact P|]. split; [exact R|]. split; [exact C|]. intro L.
  rewrite L, app_nil_r, Q, P, map_app, concat_app in A. apply app_inv_head in A.
  destruct ps2 as [|p ps2]; [reflexivity|]. exfalso. rewrite A in Z. cbn in Z. rewrite app_length in Z. lia.
Qed.

(** Garbage before a frame. *)
Definition foreign (g : bstr) : Prop := ~ In CR g /\ exists c r, g = c :: r /\ to_lower c <> "c"%char.

Lemma foreign_decode_none : forall max g, ~ In CR g -> decode max g = Incomplete.
Proof. intros max g H. unfold decode, SEP. rewrite find_sub_head_none by exact H. reflexivity. Qed.

Lemma foreign_line : forall g t, foreign g -> header_line (g ++ t) = LSkip.
Proof.
  intros g t (_ & c & r & -> & L). unfold header_line. destruct (find_char (chr 58) ((c :: r) ++ t)) as [k|] eqn:E; [|reflexivity].
  destruct k as [|k].
  - reflexivity.
  - destruct (beq (lower (substr ((c :: r) ++ t) 0 (S k))) (bs "content-length")) eqn:B; [|reflexivity].
    apply beq_eq in B. exfalso. apply L. cbn in B. injection B as B _. exact B.
Qed.

Lemma foreign_decode : forall max g n rest, foreign g ->
  decode max (g ++ enc_header n ++ SEP ++ rest) = InvalidHeader (length (g ++ enc_header n) + 4).
Proof.
  intros max g n rest F.
  assert (NC : ~ In CR (g ++ enc_header n)).
  { intro I. apply in_app_or in I. destruct I as [I|I]; [exact (proj1 F I)|exact (enc_header_no_cr n I)]. }
  assert (K : find_sub SEP (g ++ enc_header n ++ SEP ++ rest) = Some (length (g ++ enc_header n))).
  { rewrite app_assoc. unfold SEP at 1. rewrite find_sub_head_skip by exact NC. change (CR :: [LF; CR; LF]) with SEP.
    replace (find_sub SEP (SEP ++ rest)) with (Some 0) by reflexivity. cbn. f_equal. lia. }
  rewrite (decode_lines _ _ _ K).
  replace (firstn (length (g ++ enc_header n)) (g ++ enc_header n ++ SEP ++ rest)) with (g ++ enc_header n)
    by (rewrite app_assoc; rewrite firstn_app, Nat.sub_diag, firstn_all; cbn; rewrite app_nil_r; reflexivity).
  assert (L : lines_of (g ++ enc_header n) = [g ++ enc_header n]).
  { unfold lines_of. cbn [split_crlf]. unfold CRLF. rewrite find_sub_head_none by exact NC. reflexivity. }
  rewrite L. cbn [scan_lines]. rewrite foreign_line by exact F. reflexivity.
Qed.

Lemma message_foreign : forall p, message p -> foreign p.
Proof. intros p ((r & ->) & N). split; [exact N|]. exists "{"%char, r. split; [reflexivity|]. vm_compute. discriminate. Qed.

Lemma deaf_drain : forall ps max g, foreign g -> Forall message ps ->
  exists f r, drain f max true (g ++ concat (map encode ps)) = Some (repeat SkippedHeader (length ps), r) /\ rx_connected r = true.
Proof.
  induction ps as [|p ps IH]; intros max g F M.
  - exists 1. eexists. cbn [map concat]. rewrite app_nil_r. cbn [drain]. rewrite (foreign_decode_none max g (proj1 F)).
    split; reflexivity.
  - inversion M as [|x y Mp Ms E]; subst. destruct (IH max p (message_foreign p Mp) Ms) as (f & r & D & C).
    exists (S f), r. split; [|exact C]. cbn [map concat]. unfold encode at 1.
    replace (g ++ (bs "Content-Length: " ++ print_N (N.of_nat (length p)) ++ SEP ++ p) ++ concat (map encode ps))
      with (g ++ enc_header (N.of_nat (length p)) ++ SEP ++ (p ++ concat (map encode ps)))
      by (unfold enc_header; rewrite <- !app_assoc; reflexivity).
    cbn [drain]. rewrite (foreign_decode max g _ _ F).
    set (h := g ++ enc_header (N.of_nat (length p))).
    assert (LB : (Nat.ltb 0 (length h + 4) && Nat.leb (length h + 4)
                   (length (g ++ enc_header (N.of_nat (length p)) ++ SEP ++ p ++ concat (map encode ps))))%bool = true).
    { apply andb_true_intro. split; [apply Nat.ltb_lt; lia|]. apply Nat.leb_le. rewrite app_assoc. fold h. rewrite app_length.
      unfold SEP. cbn. lia. }
    rewrite LB.
    replace (skipn (length h + 4) (g ++ enc_header (N.of_nat (length p)) ++ SEP ++ p ++ concat (map encode ps)))
      with (p ++ concat (map encode ps)).
    2:{ rewrite app_assoc. fold h. rewrite skipn_app. replace (length h + 4 - length h) with 4 by lia.
        rewrite skipn_all2 by lia. reflexivity. }
    rewrite D. reflexivity.
Qed.

Lemma deaf_reads : forall ps1 ps2 max g chunks, Forall (readable max) ps1 -> foreign g -> Forall message ps2 ->
  concat chunks = concat (map encode ps1) ++ g ++ concat (map encode ps2) ->
  exists r, on_reads max reader0 chunks = Some (map Delivered ps1 ++ repeat SkippedHeader (length ps2), r) /\ rx_connected r = true.
Proof.
  intros ps1 ps2 max g chunks R F M E.
  pose proof (frames_any_chunking ps1 max [concat (map encode ps1)] R ltac:(cbn; apply app_nil_r)) as A.
  assert (B : exists r, on_reads max reader0 [concat (map encode ps1); g ++ concat (map encode ps2)]
                        = Some (map Delivered ps1 ++ repeat SkippedHeader (length ps2), r) /\ rx_connected r = true).
  { destruct (deaf_drain ps2 max g F M) as (f & r & D & C).
    cbn [on_reads] in A |- *. destruct (on_read max reader0 (concat (map encode ps1))) as [[e1 r1]|]; [|discriminate A].
    injection A as A1 A2. rewrite app_nil_r in A1. subst e1 r1.
    unfold on_read at 1. cbn [reader0 rx_connected rx_buffer app].
    destruct (drain_total (S (length (g ++ concat (map encode ps2)))) max true (g ++ concat (map encode ps2)) ltac:(lia)) as (x & X).
    pose proof (drain_fuel_indep _ _ _ _ _ _ _ X D) as ->. rewrite X. exists r. rewrite app_nil_r. auto. }
  destruct B as (r & B & C). destruct (chunking_same max chunks [concat (map encode ps1); g ++ concat (map encode ps2)]) as (e & r1 & r2 & X & Y & Z & _).
  - rewrite E. cbn. rewrite app_nil_r. reflexivity.
  - rewrite B in Y. injection Y as <- <-. exists r1. split; [exact X|]. rewrite Z. exact C.
Qed.

(** The history in which an entry comes between messages. *)
Definition whole : nat -> sayev := Write.
Definition bytes_of (ps : list bstr) : nat := length (concat (map encode ps)).

Lemma run_sends : forall c ps s, fold_left (saystep c) (map Send ps) s =
  {| sp_out := sp_out s; sp_err := sp_err s; sp_cout := sp_cout s; sp_left := sp_left s ++ concat (map encode ps); sp_file := sp_file s |}.
Proof.
  intros c. induction ps as [|p ps IH]; intro s; cbn [map fold_left concat].
  - rewrite app_nil_r. destruct s; reflexivity.
  - rewrite IH. cbn. rewrite <- app_assoc. reflexivity.
Qed.

Lemma text_foreign : forall c e, plain e -> foreign (text_of c e).
Proof.
  intros c e (Nf & Nm). split.
  - unfold text_of, entry_text.
    set (h := if coloured c then label_color (grade_name (en_grade e)) ++ grade_name (en_grade e) ++ (ESC :: bs "[0m") else grade_name (en_grade e)).
    assert (G : ~ In CR h).
    { unfold h. destruct (coloured c), (en_grade e); vm_compute; intro H; repeat (destruct H as [H|H]; [discriminate H|]); exact H. }
    intro I. rewrite !in_app_iff in I.
    destruct I as [I|[I|[I|[I|[I|[I|[I|[I|I]]]]]]]]; try exact (G I); try exact (Nf I); try exact (Nm I); try exact (print_N_no_cr _ I);
      vm_compute in I; repeat (destruct I as [I|I]; [discriminate I|]); exact I.
  - exists "["%char. eexists. split; [unfold text_of, entry_text; cbn [bs app list_ascii_of_string]; reflexivity|].
    vm_compute; discriminate.
Qed.

Lemma deaf_run : forall c ps1 e ps2, to_stderr c = false -> at_least (en_grade e) (sy_level c) ->
  sp_out (sayrun c (map Send ps1 ++ [Write (bytes_of ps1); Log e; Flush (length (text_of c e))] ++ map Send ps2 ++ [Write (bytes_of ps2)]))
  = concat (map encode ps1) ++ text_of c e ++ concat (map encode ps2).
Proof.
  intros c ps1 e ps2 M S. apply shown_iff in S. unfold sayrun. rewrite !fold_left_app, !run_sends. unfold bytes_of.
  cbn [fold_left saystep sayst0 sp_out sp_left sp_cout app].
  rewrite S, M. cbn [sp_out sp_left sp_cout app]. rewrite !firstn_all, !skipn_all. cbn [app]. rewrite firstn_all.
  rewrite <- app_assoc. reflexivity.
Qed.

(** The log file. *)
Lemma file_selected : forall c vs, exists ks, selected c (logged vs) ks /\ sp_file (sayrun c vs) = concat (map (text_of c) ks).
Proof.
  intros c vs.
  assert (G : forall vs s, sp_file (fold_left (saystep c) vs s) =
                           sp_file s ++ concat (map (text_of c) (filter (fun e => shown (sy_level c) (en_grade e)) (logged vs)))).
  { clear vs. induction vs as [|v vs IH]; intro s; cbn [fold_left logged filter map concat]; [rewrite app_nil_r; reflexivity|].
    rewrite IH. destruct v as [p|n|e|n]; cbn [saystep logged sp_file]; try reflexivity.
    cbn [filter]. destruct (shown (sy_level c) (en_grade e)); [|reflexivity].
    cbn [map concat]. destruct (to_stderr c); cbn [sp_file]; rewrite <- app_assoc; reflexivity. }
  exists (filter (fun e => shown (sy_level c) (en_grade e)) (logged vs)). split; [|exact (G vs sayst0)].
  induction (logged vs) as [|e es IH]; cbn; [constructor|].
  destruct (shown (sy_level c) (en_grade e)) eqn:E.
  - apply SelTake; [apply shown_iff; exact E|exact IH].
  - apply SelSkip; [|exact IH]. intro A. apply shown_iff in A. rewrite A in E. discriminate.
Qed.

Lemma text_line : forall c e, one_line e -> exists l, text_of c e = l ++ [LF] /\ ~ In LF l /\ line_of e l.
Proof.
  intros c e (Nf & Nm).
  set (h := if coloured c then label_color (grade_name (en_grade e)) ++ grade_name (en_grade e) ++ (ESC :: bs "[0m") else grade_name (en_grade e)).
  assert (G : ~ In LF h).
  { unfold h. destruct (coloured c), (en_grade e); vm_compute; intro H; repeat (destruct H as [H|H]; [discriminate H|]); exact H. }
  exists ("["%char :: h ++ bs "] " ++ en_file e ++ bs ":" ++ print_N (en_line e) ++ bs ": " ++ en_msg e). split; [|split].
  - unfold text_of, entry_text. fold h. cbn [app]. rewrite <- !app_assoc. reflexivity.
  - intros [I|I]; [discriminate I|]. rewrite !in_app_iff in I.
    destruct I as [I|[I|[I|[I|[I|[I|I]]]]]]; try exact (G I); try exact (Nf I); try exact (Nm I);
      try (vm_compute in I; repeat (destruct I as [I|I]; [discriminate I|]); exact I).
    destruct (print_N_spec (en_line e)) as (_ & D & _). rewrite forallb_forall in D. specialize (D _ I). discriminate D.
  - exists h. reflexivity.
Qed.

Lemma file_lines : forall c ks, Forall one_line ks ->
  exists ls, made_of_lines (concat (map (text_of c) ks)) ls /\ Forall2 line_of ks ls.
Proof.
  intros c ks. induction ks as [|k ks IH]; intro F.
  - exists []. split; [split; [reflexivity|constructor]|constructor].
  - inversion F as [|x y Fk Fs]; subst. destruct (IH Fs) as (ls & (E & N) & L). destruct (text_line c k Fk) as (l & T & NL & P).
    exists (l :: ls). split; [split|].
    + cbn [map concat]. rewrite T, E. reflexivity.
    + constructor; assumption.
    + constructor; assumption.
Qed.

Lemma selected_sub : forall c es ks (P : entry -> Prop), selected c es ks -> Forall P es -> Forall P ks.
Proof. intros c es ks P S. induction S; intro F; inversion F; subst; auto. Qed.

Lemma selected_fun : forall c es k1 k2, selected c es k1 -> selected c es k2 -> k1 = k2.
Proof.
  intros c es k1 k2 S. revert k2. induction S; intros k2 T; inversion T; subst; try contradiction; auto.
  f_equal. auto.
Qed.
