(** C152 and C153: standard output and the process log. *)
From Coq Require Import Ascii String List Arith NArith Bool Lia.
From Verif Require Import StrModel FramerModel FramerProofs LogModel SayModel SaySpec SayProofs.
Import ListNotations.
Local Open Scope nat_scope.

(** C152. Standard output carries the frames of the messages sent and nothing else, whatever is logged. Partial: when the user
    has set MCP_STDIO_MODE. *)
Theorem C152_only_frames_partial : forall c vs, stdio_mode c ->
  sp_out (sayrun c vs) ++ sp_left (sayrun c vs) = concat (map encode (sent vs)).
Proof. intros c vs M. apply only_frames. left. apply mode_yes. exact M. Qed.
Print Assumptions C152_only_frames_partial.

(** So the other side reads exactly the messages, however its reads cut the stream. *)
Theorem C152_read_partial : forall c vs max chunks, stdio_mode c ->
  Forall (readable max) (sent vs) -> concat chunks = sp_out (sayrun c vs) ->
  exists ps1 ps2 r, sent vs = ps1 ++ ps2 /\ on_reads max reader0 chunks = Some (map Delivered ps1, r) /\ rx_connected r = true /\
    (sp_left (sayrun c vs) = [] -> ps2 = []).
Proof. intros c vs max chunks M. apply frames_read. left. apply mode_yes. exact M. Qed.
Print Assumptions C152_read_partial.

(** Or when nothing logged reaches the threshold. *)
Theorem C152_quiet_partial : forall c vs max chunks, (forall e, In e (logged vs) -> ~ at_least (en_grade e) (sy_level c)) ->
  Forall (readable max) (sent vs) -> concat chunks = sp_out (sayrun c vs) ->
  exists ps1 ps2 r, sent vs = ps1 ++ ps2 /\ on_reads max reader0 chunks = Some (map Delivered ps1, r) /\ rx_connected r = true /\
    (sp_left (sayrun c vs) = [] -> ps2 = []).
Proof.
  intros c vs max chunks Q. apply frames_read. right. intros e I. destruct (shown (sy_level c) (en_grade e)) eqn:S; [|reflexivity].
  exfalso. apply (Q e I). apply shown_iff. exact S.
Qed.
Print Assumptions C152_quiet_partial.

(** Otherwise one entry that reaches standard output between two messages makes the other side lose every message after it, for
    ever and without an error: the reader skips each as a bad header and stays connected. *)
Theorem C152_deaf_refuted : forall c ps1 e ps2 max chunks,
  ~ stdio_mode c -> at_least (en_grade e) (sy_level c) -> plain e ->
  Forall (readable max) ps1 -> Forall message ps2 ->
  let vs := map Send ps1 ++ [Write (bytes_of ps1); Log e; Flush (length (text_of c e))] ++ map Send ps2 ++ [Write (bytes_of ps2)] in
  concat chunks = sp_out (sayrun c vs) ->
  exists r, on_reads max reader0 chunks = Some (map Delivered ps1 ++ repeat SkippedHeader (length ps2), r) /\ rx_connected r = true.
Proof.
  intros c ps1 e ps2 max chunks M S P R F vs E. apply deaf_reads with (g := text_of c e); try assumption.
  - apply text_foreign. exact P.
  - rewrite E. apply deaf_run; [|exact S]. destruct (to_stderr c) eqn:T; [|reflexivity]. exfalso. apply M. apply mode_yes. exact T.
Qed.
Print Assumptions C152_deaf_refuted.

(** By default the first entry is written by Start itself, StdioTransport.cpp:1031, at level INFO, which is the default threshold:
    the hypotheses above hold of a server that was not configured. *)
Definition starting : entry :=
  {| en_grade := GInfo; en_file := bs "src/mcp/StdioTransport.cpp"; en_line := 1031; en_msg := bs "Starting StdioTransport" |}.
Example C152_deaf_ex : ~ stdio_mode saycfg0 /\ at_least (en_grade starting) (sy_level saycfg0) /\ plain starting /\
  Forall message [bs "{}"] /\
  exists r, on_reads 1000 reader0 [sp_out (sayrun saycfg0 [Log starting; Flush 200; Send (bs "{}"); Write 1000])]
            = Some ([SkippedHeader], r).
Proof.
  split; [intros [H|[H|[H|[]]]]; discriminate H|]. split; [exact I|]. split.
  - split; intro H; vm_compute in H; repeat (destruct H as [H|H]; [discriminate H|]); exact H.
  - split.
    + constructor; [|constructor]. split; [eexists; reflexivity|]. intro H. vm_compute in H.
      repeat (destruct H as [H|H]; [discriminate H|]); exact H.
    + eexists. vm_compute. reflexivity.
Qed.
Example C152_ex : let c := {| sy_mode := Some (bs "1"); sy_color := None; sy_level := GDebug |} in stdio_mode c /\
  on_reads 1000 reader0 [sp_out (sayrun c [Log starting; Flush 200; Send (bs "{}"); Write 1000; Log starting])]
  = Some ([Delivered (bs "{}")], reader0).
Proof. split; [left; reflexivity|]. vm_compute. reflexivity. Qed.

(** C153. The log file holds the entries at or above the threshold, each on a line of its own with its place and its text, in the
    order they were made. Partial: for entries without line breaks. *)
Theorem C153_lines_partial : forall c vs, Forall one_line (logged vs) ->
  exists ks ls, selected c (logged vs) ks /\ made_of_lines (sp_file (sayrun c vs)) ls /\ Forall2 line_of ks ls.
Proof.
  intros c vs F. destruct (file_selected c vs) as (ks & S & E). destruct (file_lines c ks (selected_sub c _ ks one_line S F)) as (ls & M & L).
  exists ks, ls. rewrite E. auto.
Qed.
Print Assumptions C153_lines_partial.

(** The same entries go to standard error in MCP_STDIO_MODE, and to std::cout otherwise: what is logged does not depend on it. *)
Theorem C153_same : forall c1 c2 vs, coloured c1 = coloured c2 -> sy_level c1 = sy_level c2 ->
  sp_file (sayrun c1 vs) = sp_file (sayrun c2 vs).
Proof.
  intros c1 c2 vs C L. destruct (file_selected c1 vs) as (k1 & S1 & E1). destruct (file_selected c2 vs) as (k2 & S2 & E2).
  rewrite E1, E2. assert (S3 : selected c1 (logged vs) k2).
  { clear - S2 L. induction S2; [constructor|apply SelTake; [rewrite L; assumption|assumption]|apply SelSkip; [rewrite L; assumption|assumption]]. }
  rewrite (selected_fun c1 _ k1 k2 S1 S3). f_equal. apply map_ext. intro e. unfold text_of. rewrite C. reflexivity.
Qed.
Print Assumptions C153_same.

(** Level names are read without regard to case; what is not a name means INFO. *)
Theorem C153_names : forall n,
  (forall g, map upper n = grade_name g -> parse_grade n = g) /\
  (map upper n = bs "WARNING" -> parse_grade n = GWarn) /\
  (~ In (map upper n) [bs "DEBUG"; bs "INFO"; bs "WARN"; bs "WARNING"; bs "ERROR"; bs "FATAL"] -> parse_grade n = GInfo).
Proof.
  intro n. unfold parse_grade. split; [|split].
  - intros g ->. destruct g; reflexivity.
  - intros ->. reflexivity.
  - intro N. cbn [In] in N.
    repeat match goal with |- context [if beq ?a ?b then _ else _] =>
      let X := fresh "X" in destruct (beq a b) eqn:X; [apply StrProofs.beq_eq in X; exfalso; apply N; rewrite X; tauto|] end.
    reflexivity.
Qed.
Print Assumptions C153_names.

(** A text that holds a line break, such as the id in a cancellation (Server.cpp:1152), makes what looks like a second entry. *)
Theorem C153_forged_refuted : exists c e e1 e2, plain e /\ e1 <> e2 /\
  sp_file (sayrun c [Log e]) = sp_file (sayrun c [Log e1; Log e2]).
Proof.
  exists {| sy_mode := Some (bs "1"); sy_color := Some (bs "0"); sy_level := GInfo |},
    {| en_grade := GInfo; en_file := bs "Server.cpp"; en_line := 1152; en_msg := bs "Cancellation received for id=1" ++ [LF] ++ bs "[ERROR] x.cpp:1: y" |},
    {| en_grade := GInfo; en_file := bs "Server.cpp"; en_line := 1152; en_msg := bs "Cancellation received for id=1" |},
    {| en_grade := GError; en_file := bs "x.cpp"; en_line := 1; en_msg := bs "y" |}.
  split; [|split; [discriminate|vm_compute; reflexivity]].
  split; intro H; vm_compute in H; repeat (destruct H as [H|H]; [discriminate H|]); exact H.
Qed.
Print Assumptions C153_forged_refuted.
Example C153_ex : Forall one_line (logged [Log starting; Log starting]) /\
  exists ls, made_of_lines (sp_file (sayrun saycfg0 [Log starting; Log starting])) ls /\ length ls = 2.
Proof.
  assert (F : Forall one_line (logged [Log starting; Log starting])).
  { repeat constructor; intro H; vm_compute in H; repeat (destruct H as [H|H]; [discriminate H|]); exact H. }
  split; [exact F|]. destruct (C153_lines_partial saycfg0 _ F) as (ks & ls & S & M & L). exists ls. split; [exact M|].
  inversion S as [|e es k1 A S1|e es k1 A]; subst; [|exfalso; apply A; exact I].
  inversion S1 as [|e' es' k2 A' S2|e' es' k2 A']; subst; [|exfalso; apply A'; exact I]. inversion S2; subst.
  inversion L as [|a b c d X L1]; subst. inversion L1 as [|a' b' c' d' X' L2]; subst. inversion L2. reflexivity.
Qed.
