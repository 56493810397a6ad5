(** C111 to C114: what the configuration texts of the transports mean. *)
From Coq Require Import Ascii String List Permutation Arith NArith ZArith Bool Lia ZifyBool ZifyNat ZifyN.
From Verif Require Import StrModel StrProofs GuardModel DoubleModel JsonModel RpcModel PendModel WwwModel WqModel StdioModel ConfModel.
From Verif Require Import GuardSpec WwwSpec ConfSpec ConfProofs.
Import ListNotations.
Local Open Scope nat_scope.

(** ** C111: the HTTP client *)

(** C111. Every text option has the value last given to one of its names, and its default if none
    was given, whatever else the text says and however it is laid out. *)
Theorem C111_strings_partial : forall l t ks g d, http_text l t -> In (ks, g, d) http_strings ->
  (forall v, given ks l v -> g (http_config t) = v) /\ (not_given ks l -> g (http_config t) = d).
Proof. exact http_config_strings. Qed.
Print Assumptions C111_strings_partial.

(** C111. Likewise the numbers, when the last one given is a numeral below 2^32. *)
Theorem C111_numbers_partial : forall l t ks g d, http_text l t -> In (ks, g, d) http_numbers ->
  (forall v n, given ks l v -> numeral v n -> (n < 2 ^ 32)%N -> g (http_config t) = n) /\
  (not_given ks l -> g (http_config t) = d).
Proof. exact http_config_numbers. Qed.
Print Assumptions C111_numbers_partial.

(** C111. Likewise the switches: off for 0, false and False only. *)
Theorem C111_switches_partial : forall l t ks g d, http_text l t -> In (ks, g, d) http_switches ->
  (forall v, given ks l v -> (g (http_config t) = false <-> In v [bs "0"; bs "false"; bs "False"])) /\
  (not_given ks l -> g (http_config t) = d).
Proof. exact http_config_switches. Qed.
Print Assumptions C111_switches_partial.

(** C111. A name that is not an option changes nothing. *)
Theorem C111_unknown : forall l1 k v l2 t t',
  (forall ks g d, In (ks, g, d) http_strings -> ~ In k ks) ->
  (forall ks g d, In (ks, g, d) http_numbers -> ~ In k ks) ->
  (forall ks g d, In (ks, g, d) http_switches -> ~ In k ks) ->
  http_text (l1 ++ (k, v) :: l2) t -> http_text (l1 ++ l2) t' -> http_config t = http_config t'.
Proof.
  intros l1 k v l2 t t' H1 H2 H3. apply http_config_drop. intros o. now apply ho_set_unknown.
Qed.
Print Assumptions C111_unknown.

(** C111. A number that is none changes nothing: an earlier value stays. *)
Theorem C111_not_a_number : forall l1 k v l2 t t' ks g d,
  In (ks, g, d) http_numbers -> In k ks -> no_number v ->
  http_text (l1 ++ (k, v) :: l2) t -> http_text (l1 ++ l2) t' -> http_config t = http_config t'.
Proof.
  intros l1 k v l2 t t' ks g d H Hk N. apply http_config_drop. intros o. now apply (ho_set_no_number ks g d).
Qed.
Print Assumptions C111_not_a_number.

(** A text of the documented form, with blanks and an empty entry, meets the premises. *)
Definition demo_http : bstr := bs "scheme=http; host = 127.0.0.1 ;; connectTimeoutMs=500; token=abc=; enableGetStream=false; token=XYZ ; connectTimeoutMs=soon; color=red".
Definition demo_settings : list setting :=
  [(bs "scheme", bs "http"); (bs "host", bs "127.0.0.1"); (bs "connectTimeoutMs", bs "500"); (bs "token", bs "abc=");
   (bs "enableGetStream", bs "false"); (bs "token", bs "XYZ"); (bs "connectTimeoutMs", bs "soon"); (bs "color", bs "red")].

Ltac blanks := intros ? ?; cbn in *; intuition (subst; auto).
Ltac linetac k v w1 w2 w3 w4 :=
  exists w1, w2, w3, w4; do 4 (split; [blanks|]);
  split; [split; [intros c [H|H]; injection H as <-; split; discriminate|split; cbn; intuition discriminate]|];
  split; [split; [intros c [H|H]; injection H as <-; split; discriminate|cbn; intuition discriminate]|reflexivity].

Example C111_text : http_text demo_settings demo_http.
Proof.
  unfold demo_settings, demo_http.
  apply (ht_cons _ _ (bs "scheme=http")); [linetac (bs "scheme") (bs "http") (@nil ascii) (@nil ascii) (@nil ascii) (@nil ascii)|].
  apply (ht_cons _ _ (bs " host = 127.0.0.1 ")); [linetac (bs "host") (bs "127.0.0.1") [SPACE] [SPACE] [SPACE] [SPACE]|].
  apply (ht_skip []); [blanks|].
  apply (ht_cons _ _ (bs " connectTimeoutMs=500")); [linetac (bs "connectTimeoutMs") (bs "500") [SPACE] (@nil ascii) (@nil ascii) (@nil ascii)|].
  apply (ht_cons _ _ (bs " token=abc=")); [linetac (bs "token") (bs "abc=") [SPACE] (@nil ascii) (@nil ascii) (@nil ascii)|].
  apply (ht_cons _ _ (bs " enableGetStream=false")); [linetac (bs "enableGetStream") (bs "false") [SPACE] (@nil ascii) (@nil ascii) (@nil ascii)|].
  apply (ht_cons _ _ (bs " token=XYZ ")); [linetac (bs "token") (bs "XYZ") [SPACE] (@nil ascii) (@nil ascii) [SPACE]|].
  apply (ht_cons _ _ (bs " connectTimeoutMs=soon")); [linetac (bs "connectTimeoutMs") (bs "soon") [SPACE] (@nil ascii) (@nil ascii) (@nil ascii)|].
  apply ht_one. linetac (bs "color") (bs "red") [SPACE] (@nil ascii) (@nil ascii) (@nil ascii).
Qed.

Example C111_ex : let o := http_config demo_http in
  ho_scheme o = bs "http" /\ ho_host o = bs "127.0.0.1" /\ ho_port o = bs "9443" /\ ho_connect o = 500%N /\
  ho_token o = bs "XYZ" /\ ho_get o = false /\ ho_delete o = true.
Proof. vm_compute. repeat split. Qed.

(** C111 fails for a value with a semicolon: it is cut there, and the rest is dropped, whatever
    the secret. *)
Theorem C111_semicolon_refuted : forall a b, http_value a -> ~ In EQUALS b -> ~ In SEMI b ->
  ho_secret (http_config (bs "clientSecret=" ++ (a ++ [SEMI] ++ b))) = a.
Proof. exact http_cut. Qed.
Print Assumptions C111_semicolon_refuted.

Example C111_semicolon_ex : ho_secret (http_config (bs "clientSecret=s3cr;et")) = bs "s3cr".
Proof. reflexivity. Qed.

(** C111 fails for numbers of 2^32 and more: they are taken modulo 2^32, so that a timeout of
    2^32 milliseconds is none at all. *)
Theorem C111_large_refuted : forall l t ks g d v n, http_text l t -> In (ks, g, d) http_numbers ->
  given ks l v -> numeral v n -> (n < 2 ^ 64)%N -> g (http_config t) = (n mod 2 ^ 32)%N.
Proof. intros l t ks g d v n H I. exact (http_config_wrap l t ks g d H I v n). Qed.
Print Assumptions C111_large_refuted.

Example C111_large_ex : ho_read (http_config (bs "readTimeoutMs=4294967296")) = 0%N.
Proof. reflexivity. Qed.

(** C111 fails for other ways to say no: they switch on. *)
Theorem C111_no_refuted : forall v, In v [bs "FALSE"; bs "no"; bs "off"; bs "No"; bs "disabled"; []] ->
  ho_delete (http_config (bs "enableDeleteOnClose=" ++ v)) = true /\
  ho_get (http_config (bs "enableGetStream=" ++ v)) = true.
Proof.
  intros v H. cbn [In] in H. repeat (destruct H as [<-|H]; [split; reflexivity|]). destruct H.
Qed.
Print Assumptions C111_no_refuted.

(** C111 fails for texts that only begin like a number, and for negative ones: they are taken. *)
Theorem C111_lax_refuted :
  ho_read (http_config (bs "readTimeoutMs=30s")) = 30%N /\
  ho_read (http_config (bs "readTimeoutMs=-1")) = 4294967295%N /\
  ho_read (http_config (bs "readTimeoutMs=1e4")) = 1%N.
Proof. repeat split; reflexivity. Qed.
Print Assumptions C111_lax_refuted.

(** ** C112: standard input and output *)

(** C112. Every option has the value last given for it, and the value of an empty text if none was
    given; a limit of nothing means one byte, and the request timeout 0 is stored as the longest
    time there is. *)
Theorem C112_options_partial : forall env l t x g f, stdio_text l t -> In (x, g, f) stdio_options ->
  (forall v n, given [x] l v -> numeral v n -> (n < 2 ^ 63)%N -> g (stdio_config env t) = f n) /\
  (not_given [x] l -> g (stdio_config env t) = g (stdio_config env [])).
Proof. exact stdio_config_options. Qed.
Print Assumptions C112_options_partial.

(** C112. Without a text: 30 seconds, or what the environment says, no idle or write timeout, a queue
    of 2 MiB and messages of 1 MiB. *)
Theorem C112_defaults : forall env,
  sc_idle (stdio_config env []) = 0%Z /\ sc_write (stdio_config env []) = 0%Z /\
  sc_queue (stdio_config env []) = 2097152%N /\ sc_content (stdio_config env []) = 1048576%N /\
  (no_number env -> sc_timeout (stdio_config env []) = 30000%Z) /\
  (forall n, numeral env n -> (n < 2 ^ 63)%N -> sc_timeout (stdio_config env []) = Z.of_N n).
Proof.
  intros env. do 4 (split; [reflexivity|]). change (sc_timeout (stdio_config env [])) with (sc_timeout (sconf0 env)).
  unfold sconf0, sc_timeout. split.
  - intros N. destruct env as [|c env]; [reflexivity|]. now rewrite stoull_no_number.
  - intros n H B. rewrite (stoull_numeral env n H); [|unfold two64; change (2 ^ 63)%N with 9223372036854775808%N in B; lia].
    destruct env; [now destruct H|]. now apply int64_small.
Qed.
Print Assumptions C112_defaults.

(** C112. Unknown names and values that are no numbers change nothing. *)
Theorem C112_ignored : forall env l1 k v l2 t t',
  no_number v \/ (forall x g f, In (x, g, f) stdio_options -> k <> x) ->
  stdio_text (l1 ++ (k, v) :: l2) t -> stdio_text (l1 ++ l2) t' -> stdio_config env t = stdio_config env t'.
Proof. exact stdio_config_drop. Qed.
Print Assumptions C112_ignored.

Example C112_text : stdio_text
  [(bs "timeout_ms", bs "100"); (bs "idle_read_timeout_ms", bs "200"); (bs "timeout_ms", bs "300")]
  (bs "timeout_ms=100; idle_read_timeout_ms=200; timeout_ms=300").
Proof.
  assert (W : forall s, forallb (fun c => negb (is_sep c)) s = true -> word s).
  { intros s H c Hc K. rewrite forallb_forall in H. apply H in Hc. now rewrite (proj1 (in_sep c) K) in Hc. }
  apply (st_more [] (bs "timeout_ms") (bs "100") SEMI _ (bs " idle_read_timeout_ms=200; timeout_ms=300")); [intros c []|now apply W|cbn; intuition discriminate|now apply W|intros c [<-|[]]; now left|].
  apply (st_more [SPACE] (bs "idle_read_timeout_ms") (bs "200") SEMI _ (bs " timeout_ms=300")); [intros c [<-|[]]; cbn; tauto|now apply W|cbn; intuition discriminate|now apply W|intros c [<-|[]]; now left|].
  apply (st_last [SPACE] (bs "timeout_ms") (bs "300")); [intros c [<-|[]]; cbn; tauto|now apply W|cbn; intuition discriminate|now apply W].
Qed.

Example C112_ex : let o := stdio_config [] (bs "timeout_ms=100; idle_read_timeout_ms=200; timeout_ms=300; write_queue_max_bytes=0") in
  sc_timeout o = 300%Z /\ sc_idle o = 200%Z /\ sc_write o = 0%Z /\ sc_queue o = 1%N.
Proof. repeat split; reflexivity. Qed.

(** C112. The timeout 0 is documented to disable request timeouts. Refuted: whatever the clock says,
    the deadline of a request sent then is not representable, and computing it is undefined. *)
Theorem C112_zero_refuted : forall env now max r,
  sc_timeout (stdio_config env (bs "timeout_ms=0")) = timeout_of 0 /\
  st_ub (stdio_run (stdio_start now 0 max) [SBegin r; SRegister 0]) = true.
Proof.
  intros env now max r. split; [reflexivity|]. unfold stdio_run. cbn [fold_left stdio_step].
  unfold stdio_begin. change (st_connected (stdio_start now 0 max)) with true. cbn iota.
  destruct (stdio_id _ _) as [i c]. cbn [stdio_start st_entering app MapModel.take_nth].
  unfold stdio_register. cbn [stdio_start st_now st_timeout].
  assert (D : forall z, z = timeout_of 0 -> deadline_of now z = None);
    [|match goal with |- context [deadline_of now ?z] => now rewrite (D z eq_refl) end].
  intros z ->. unfold deadline_of. replace (Z.leb (- two63) (timeout_of 0 * 1000000) && Z.ltb (timeout_of 0 * 1000000) two63)%bool
    with false by reflexivity. reflexivity.
Qed.
Print Assumptions C112_zero_refuted.

(** C112. With blanks around the equals sign the setting is silently lost, unlike in the HTTP
    client's text. *)
Theorem C112_blanks_refuted : forall env,
  stdio_config env (bs "timeout_ms = 100") = stdio_config env [] /\
  ho_connect (http_config (bs "connectTimeoutMs = 100")) = 100%N.
Proof. intros env. split; reflexivity. Qed.
Print Assumptions C112_blanks_refuted.

(** ** C113: shared memory *)

(** C113. The channel is the name in front of the question mark, with or without shm:// before it,
    and each option has the value last given in the query, else its default. *)
Theorem C113_options_partial : forall pre name l q, ~ In QMARK name -> query_part l q ->
  pre = bs "shm://" \/ pre = [] /\ starts_with (bs "shm://") (name ++ q) = false ->
  let o := shm_config (pre ++ name ++ q) in
  (name <> [] -> mo_channel o = name) /\ (name = [] -> mo_channel o = bs "mcp-shm") /\
  (forall v, given [bs "create"] l v -> (mo_create o = true <-> affirmative v)) /\
  (not_given [bs "create"] l -> mo_create o = false) /\
  (forall v n, given [bs "maxSize"] l v -> numeral v n -> (n < 2 ^ 64)%N -> mo_size o = n) /\
  (not_given [bs "maxSize"] l -> mo_size o = 1048576%N) /\
  (forall v n, given [bs "maxCount"] l v -> numeral v n -> (n < 2 ^ 32)%N -> mo_count o = n) /\
  (not_given [bs "maxCount"] l -> mo_count o = 256%N).
Proof. exact shm_config_options. Qed.
Print Assumptions C113_options_partial.

Example C113_ex :
  query_part [(bs "create", bs "true"); (bs "maxSize", bs "65536"); (bs "maxCount", bs "64")]
    (bs "?create=true&maxSize=65536&maxCount=64") /\
  shm_config (bs "shm://mcp-shm?create=true&maxSize=65536&maxCount=64") =
    {| mo_channel := bs "mcp-shm"; mo_create := true; mo_size := 65536%N; mo_count := 64%N |} /\
  shm_config (bs "demo") = {| mo_channel := bs "demo"; mo_create := false; mo_size := 1048576%N; mo_count := 256%N |}.
Proof.
  split; [|split; reflexivity]. split; [|right; reflexivity].
  intros k v H. cbn [In] in H.
  repeat (destruct H as [H|H]; [apply pair_equal_spec in H as [<- <-]; split; [split|]; intros K; cbn in K; intuition discriminate|]). destruct H.
Qed.

(** C113. Both ends, given the same name with or without the prefix, use the same channel. *)
Theorem C113_same_channel : forall name l q l' q', ~ In QMARK name -> query_part l q -> query_part l' q' ->
  starts_with (bs "shm://") (name ++ q') = false ->
  mo_channel (shm_config (bs "shm://" ++ name ++ q)) = mo_channel (shm_config (name ++ q')).
Proof.
  intros name l q l' q' N Q Q' P.
  destruct (shm_config_options (bs "shm://") name l q N Q (or_introl eq_refl)) as (A & B & _).
  destruct (shm_config_options [] name l' q' N Q' (or_intror (conj eq_refl P))) as (A' & B' & _).
  cbn [app] in A', B'. destruct name as [|c name].
  - now rewrite (B eq_refl), (B' eq_refl).
  - now rewrite A, A' by discriminate.
Qed.
Print Assumptions C113_same_channel.

(** C113 fails for counts of 2^32 and more: they are taken modulo 2^32. *)
Theorem C113_large_refuted : forall pre name l q v n, ~ In QMARK name -> query_part l q ->
  pre = bs "shm://" \/ pre = [] /\ starts_with (bs "shm://") (name ++ q) = false ->
  given [bs "maxCount"] l v -> numeral v n -> (n < 2 ^ 64)%N ->
  mo_count (shm_config (pre ++ name ++ q)) = (n mod 2 ^ 32)%N.
Proof. exact shm_count_wrap. Qed.
Print Assumptions C113_large_refuted.

Example C113_large_ex : mo_count (shm_config (bs "shm://a?maxCount=4294967296")) = 0%N.
Proof. reflexivity. Qed.

(** ** C114: the HTTP server *)

(** C114. The server listens where the text says: the scheme, the address (an IPv6 address in
    brackets), the port or, if none is given or it is empty, 9443, and each option of the query has the value last given. *)
Theorem C114_listen_partial : forall w sch s addr port a path l q w',
  spaces w -> spaces w' -> scheme_text sch s -> listen_text addr port a -> path_part path -> query_part l q ->
  (forall c, hd_error (rev (path ++ q)) = Some c -> is_space c = false) ->
  let o := listen_config (w ++ (s ++ a ++ path ++ q) ++ w') in
  lo_scheme o = sch /\ lo_address o = addr /\ lo_port o = port /\
  forall ks g d, In (ks, g, d) listen_strings ->
    (forall v, given ks l v -> g o = v) /\ (not_given ks l -> g o = d).
Proof.
  intros w sch s addr port a path l q w' W W' Sc L P Q E o. unfold o.
  rewrite (listen_config_run w sch s addr port a path l q w' W W' Sc L P Q E).
  destruct (run_listen_same l (listen_start sch addr port)) as (-> & -> & ->).
  do 3 (split; [reflexivity|]). intros ks g d I. destruct (listen_strings_set ks g d I) as [D Sg]. split.
  - intros v G. now apply (run_given _ _ lo_set g ks Some Sg l _ v).
  - intros G. rewrite (run_not_given _ _ lo_set g ks Some Sg) by easy. apply D.
Qed.
Print Assumptions C114_listen_partial.

Example C114_empty_ex : lo_port (listen_config (bs "http://localhost:")) = bs "9443".
Proof. reflexivity. Qed.

Example C114_ex :
  listen_text (bs "::1") (bs "8443") (bs "[::1]:8443") /\
  listen_config (bs " https://[::1]:8443/x?cert=/etc/c.pem&key=k.pem&rpc=/r ") =
    {| lo_scheme := bs "https"; lo_address := bs "::1"; lo_port := bs "8443"; lo_endpoint := []; lo_stream := [];
       lo_rpc := bs "/r"; lo_notify := bs "/mcp/notify"; lo_cert := bs "/etc/c.pem"; lo_key := bs "k.pem" |}.
Proof.
  split; [|reflexivity]. apply (lt_ip6_port (bs "::1") (bs "8443")); [split; [discriminate|]|].
  - intros c H. cbn in H. repeat (destruct H as [<-|H]; [split; [reflexivity|cbn; intuition discriminate]|]). destruct H.
  - intros c H. cbn in H. repeat (destruct H as [<-|H]; [reflexivity|]). destruct H.
Qed.

(** C114. An empty text listens on every interface at port 9443. *)
Theorem C114_default : forall w, spaces w ->
  lo_address (listen_config w) = bs "0.0.0.0" /\ lo_port (listen_config w) = bs "9443" /\ lo_scheme (listen_config w) = bs "http".
Proof.
  intros w W. assert (T : trim w = []).
  { unfold trim. replace (drop_while is_space w) with (@nil ascii); [reflexivity|].
    induction w as [|c w IH]; [easy|]. cbn. rewrite (W c (or_introl eq_refl)). apply IH. intros d Hd. apply W. now right. }
  unfold listen_config. rewrite T. repeat split; reflexivity.
Qed.
Print Assumptions C114_default.

(** C114 fails for an IPv6 address without brackets: its last group is taken for the port. *)
Theorem C114_ipv6_refuted :
  lo_address (listen_config (bs "http://::1")) = bs ":" /\ lo_port (listen_config (bs "http://::1")) = bs "1" /\
  lo_address (listen_config (bs "fe80::1")) = bs "fe80:".
Proof. repeat split; reflexivity. Qed.
Print Assumptions C114_ipv6_refuted.

(** C114 fails when the closing bracket is missing: the server then listens on every interface, and
    does not check the Host and Origin headers as it would on a loopback address. *)
Theorem C114_bracket_refuted : forall loopback h, ~ In RBR h -> ~ In SLASH h -> ~ In QMARK h ->
  (forall c, hd_error (rev h) = Some c -> is_space c = false) -> loopback (bs "0.0.0.0") = false ->
  lo_address (listen_config (bs "http://[" ++ h)) = bs "0.0.0.0" /\
  guarded loopback (lo_address (listen_config (bs "http://[" ++ h))) = false.
Proof.
  intros lb h R S_ Q E L.
  assert (A : lo_address (listen_config (bs "http://[" ++ h)) = bs "0.0.0.0").
  { unfold listen_config.
    assert (T : trim (bs "http://[" ++ h) = bs "http://[" ++ h).
    { apply trim_keep. intros c [H|H]; [now injection H as <-|].
      rewrite rev_app_distr in H. destruct (rev h) as [|x y] eqn:Eh; [now injection H as <-|]. injection H as <-. now apply E. }
    rewrite T. change (starts_with (bs "http://") (bs "http://[" ++ h)) with true. cbn iota.
    change (skipn 7 (bs "http://[" ++ h)) with (LBR :: h).
    rewrite (cut_at_none QMARK) by (intros [H|H]; [discriminate|contradiction]). cbn [or_keep].
    rewrite (cut_at_none SLASH) by (intros [H|H]; [discriminate|contradiction]).
    assert (T2 : trim (LBR :: h) = LBR :: h).
    { apply trim_keep. intros c [H|H]; [now injection H as <-|].
      cbn [rev] in H. destruct (rev h) as [|x y] eqn:Eh; [now injection H as <-|]. injection H as <-. now apply E. }
    rewrite T2. unfold listen_at. rewrite eqb_refl, (cut_at_none RBR) by (intros [H|H]; [discriminate|contradiction]).
    reflexivity. }
  split; [exact A|]. rewrite A. unfold guarded. change (trim (lower (bs "0.0.0.0"))) with (bs "0.0.0.0"). now rewrite L.
Qed.
Print Assumptions C114_bracket_refuted.

Example C114_bracket_ex : lo_address (listen_config (bs "http://[::1:9443")) = bs "0.0.0.0".
Proof. reflexivity. Qed.

(** C114 fails for a scheme in capitals, which is read as a host, and for percent-encoded values,
    which are taken as they are. *)
Theorem C114_letters_refuted :
  lo_scheme (listen_config (bs "HTTPS://127.0.0.1:9443")) = bs "http" /\
  lo_address (listen_config (bs "HTTPS://127.0.0.1:9443")) = bs "HTTPS" /\
  lo_cert (listen_config (bs "https://127.0.0.1?cert=/my%20certs/c.pem")) = bs "/my%20certs/c.pem".
Proof. repeat split; reflexivity. Qed.
Print Assumptions C114_letters_refuted.
