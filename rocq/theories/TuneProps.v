(** C203: what the client chose is in force once its request is answered. *)
From Coq Require Import Ascii String List Arith NArith ZArith Bool Lia.
From Verif Require Import StrModel DoubleModel JsonModel RpcModel MapModel TaskModel SubModel SubSpec SubProofs LogModel LogSpec LogProofs
  FreshModel FreshProofs TuneModel TuneSpec TuneProofs.
Import ListNotations.
Local Open Scope nat_scope.

(** The client's requests were carried out in order and it has received all answers. Until it sends another, an update of a resource that the server
    begins to announce from then on is received only if the client is subscribed to it or to nothing at all; and if so it is received, once
    nothing is left to send or receive. *)
Theorem C203_updates_partial : forall h h' i u,
  in_order h -> answered h -> sends_none h' -> nth_error (called h') i = Some (TUpdated u) ->
  let n := length (called h) + i in let s' := trun tune0 (h ++ h') in let ops := sub_ops (asked_for h) in
  (received s' n -> subscribed ops u \/ forall v, ~ subscribed ops v) /\
  (drained s' -> subscribed ops u \/ (forall v, ~ subscribed ops v) -> received s' n).
Proof.
  intros h h' i u O A N E. cbv zeta. pose proof (in_force h h' i _ A N E) as [F G]. cbv zeta in F, G.
  rewrite (chosen h O A) in F, G. cbn [allows] in F, G. rewrite chosen_subs in F, G.
  split; [intro R; apply should_iff; exact (F R)|intros D S; apply (G D); apply should_iff; exact S].
Qed.
Print Assumptions C203_updates_partial.

(** The same for log messages: one below the level chosen last is not received. *)
Theorem C203_below_partial : forall h h' i name m c rm rc,
  in_order h -> answered h -> sends_none h' -> nth_error (called h') i = Some (TLog name) ->
  last_choice (level_acts (asked_for h)) c -> at_rank c rc -> plain c -> lower name = m -> at_rank m rm -> rm < rc ->
  ~ received (trun tune0 (h ++ h')) (length (called h) + i).
Proof.
  intros h h' i name m c rm rc O A N E L Rc Pc Em Rm Lt R. pose proof (in_force h h' i _ A N E) as [F _]. cbv zeta in F.
  specialize (F R). rewrite (chosen h O A) in F. cbn [allows] in F. rewrite chosen_min, (min_is 0 _ c rc L Rc) in F.
  rewrite (never_below name m c rm rc Em Rm Rc Pc Lt) in F. discriminate.
Qed.
Print Assumptions C203_below_partial.
(** One at that level or above it is received. *)
Theorem C203_above_partial : forall h h' i name m c rm rc,
  in_order h -> answered h -> sends_none h' -> nth_error (called h') i = Some (TLog name) ->
  last_choice (level_acts (asked_for h)) c -> at_rank c rc -> lower name = m -> at_rank m rm -> plain m -> rc <= rm ->
  drained (trun tune0 (h ++ h')) -> received (trun tune0 (h ++ h')) (length (called h) + i).
Proof.
  intros h h' i name m c rm rc O A N E L Rc Em Rm Pm Le D. pose proof (in_force h h' i _ A N E) as [_ G]. cbv zeta in G.
  apply (G D). rewrite (chosen h O A). cbn [allows]. rewrite chosen_min, (min_is 0 _ c rc L Rc).
  now rewrite (proj1 (not_lost name m c rm rc Em Rm Rc Pm Le)).
Qed.
Print Assumptions C203_above_partial.

(** No notification is received twice. *)
Theorem C203_once : forall h a i m b, tu_got (trun tune0 h) = a ++ TMsg i m :: b ->
  forall m', ~ In (TMsg i m') a /\ ~ In (TMsg i m') b.
Proof.
  intros h a i m b E m'. pose proof (got_once h) as H. rewrite E, flat_map_app in H. cbn in H. apply nodup_mid in H. destruct H as [_ H].
  rewrite in_app_iff, !in_flat_map in H. split; intro I; apply H; [left|right]; exists (TMsg i m'); (split; [exact I|now left]).
Qed.
Print Assumptions C203_once.

Definition param (k v : string) : option json := Some (JObj [(bs k, JStr (bs v))]).

(** A notification that passed the decision before the request was carried out arrives after its answer: the client, told that only errors
    are sent, receives a debug message; told that it is unsubscribed, an update. *)
Definition late (a : ask) (m : tell) : list tev := [UCall m; USend a; UHandle 0; UAnswer 0; UHear].
Lemma late_one : forall a m, one_by_one (late a m ++ [UPost 0; UHear]).
Proof.
  intros a m u x v E. unfold late in E. cbn [List.app] in E.
  destruct u as [|? [|? [|? [|? [|? [|? [|? [|? u]]]]]]]]; cbn in E; try discriminate E.
  injection E as <- <- <-. unfold answered. cbn. destruct (allows choice0 m); reflexivity.
Qed.
Theorem C203_late_log_refuted : exists h h' i,
  one_by_one (h ++ h') /\ answered h /\ sends_none h' /\ last_choice (level_acts (asked_for h)) (bs "error") /\
  nth_error (called h) i = Some (TLog (bs "debug")) /\
  ~ received (trun tune0 h) i /\ received (trun tune0 (h ++ h')) i.
Proof.
  exists (late (ALevel (param "level" "error")) (TLog (bs "debug"))), [UPost 0; UHear], 0.
  split; [apply late_one|]. split; [reflexivity|]. split; [reflexivity|]. split.
  - right. exists [], (param "level" "error"), (bs "error"), []. split; [reflexivity|]. split; [eexists; split; reflexivity|]. split; [reflexivity|constructor].
  - split; [reflexivity|]. split; [intros [m [H|[]]]; discriminate|]. exists (TLog (bs "debug")). vm_compute. right. now left.
Qed.
Print Assumptions C203_late_log_refuted.
Theorem C203_late_update_refuted : exists h h' i,
  answered h /\ sends_none h' /\ subscribed (sub_ops (asked_for h)) (bs "b") /\ ~ subscribed (sub_ops (asked_for h)) (bs "a") /\
  nth_error (called h) i = Some (TUpdated (bs "a")) /\
  ~ received (trun tune0 h) i /\ received (trun tune0 (h ++ h')) i.
Proof.
  exists ([USend (ASub (param "uri" "a")); UHandle 0; UAnswer 0; UHear; USend (ASub (param "uri" "b")); UHandle 0; UAnswer 0; UHear] ++
    late (AUnsub (param "uri" "a")) (TUpdated (bs "a"))), [UPost 0; UHear], 0.
  split; [reflexivity|]. split; [reflexivity|]. rewrite <- !uris_spec. split; [vm_compute; now left|]. split; [vm_compute; intros [H|[]]; discriminate H|].
  split; [reflexivity|]. split; [vm_compute; intros [m [H|[H|[H|[]]]]]; discriminate H|]. exists (TUpdated (bs "a")). vm_compute. do 3 right. now left.
Qed.
Print Assumptions C203_late_update_refuted.

(** Two requests sent without waiting may, where each is handled on its own thread, be carried out in the other order: the client chose debug last, and debug messages are not sent. *)
Theorem C203_overlap_refuted : exists h h' i,
  answered h /\ sends_none h' /\ last_choice (level_acts (asked_for h)) (bs "debug") /\ nth_error (called h') i = Some (TLog (bs "debug")) /\
  drained (trun tune0 (h ++ h')) /\ ~ received (trun tune0 (h ++ h')) (length (called h) + i).
Proof.
  exists [USend (ALevel (param "level" "error")); USend (ALevel (param "level" "debug")); UHandle 1; UHandle 0; UAnswer 0; UAnswer 0; UHear; UHear], [UCall (TLog (bs "debug"))], 0.
  split; [reflexivity|]. split; [reflexivity|]. split.
  - right. exists [GSetLevel (param "level" "error")], (param "level" "debug"), (bs "debug"), []. split; [reflexivity|].
    split; [eexists; split; reflexivity|]. split; [reflexivity|constructor].
  - split; [reflexivity|]. split; [split; reflexivity|]. vm_compute. intros [m [H|[H|[]]]]; discriminate H.
Qed.
Print Assumptions C203_overlap_refuted.

(** A history that meets the hypotheses: subscribed to one resource and to errors only; updates and messages of both kinds follow. *)
Example some_tuned :
  let h := [USend (ASub (param "uri" "a")); UCall (TUpdated (bs "b")); UHandle 0; UAnswer 0; UHear; USend (ALevel (param "level" "error")); UHandle 0; UAnswer 0; UPost 0; UHear; UHear] in
  let h' := [UCall (TUpdated (bs "a")); UCall (TUpdated (bs "b")); UCall (TLog (bs "debug")); UCall (TLog (bs "error")); UPost 1; UPost 0; UHear; UHear] in
  in_order h /\ answered h /\ sends_none h' /\ drained (trun tune0 (h ++ h')) /\
  subscribed (sub_ops (asked_for h)) (bs "a") /\ last_choice (level_acts (asked_for h)) (bs "error") /\
  map (fun d => match d with TMsg i _ => i | TAns _ => 99 end) (tu_got (trun tune0 (h ++ h'))) = [99; 99; 0; 4; 1].
Proof.
  cbv zeta. split.
  - left. intros u x v E. cbn [List.app] in E.
    destruct u as [|? [|? [|? [|? [|? [|? [|? [|? [|? [|? [|? [|? u]]]]]]]]]]]]; cbn in E; try discriminate E; injection E; intros; subst; reflexivity.
  - split; [reflexivity|]. split; [reflexivity|]. split; [split; reflexivity|]. rewrite <- uris_spec. split; [vm_compute; now left|]. split; [|reflexivity].
    right. exists [], (param "level" "error"), (bs "error"), []. split; [reflexivity|]. split; [eexists; split; reflexivity|]. split; [reflexivity|constructor].
Qed.
