(** The page of the model is the page of its families, and each series is in it once. *)
From Coq Require Import String List NArith Bool Lia.
From Verif Require Import Bytes BytesProofs NameModel GatewayModel DnsModel EndpointModel PolicyStoreModel HistogramModel
  LabelModel LabelSpec LabelReadProofs.
Import ListNotations.
Open Scope N_scope.

(* ---- labels ---- *)

Lemma renders_direction d : renders (fmt_direction d) (direction_pairs d).
Proof. apply renders_lab. Qed.
Lemma renders_client_tls t : renders (fmt_tls_connect t) (client_tls_pairs t).
Proof. destruct t; first [apply renders_lab | apply renders_cons, renders_lab]. Qed.
Lemma renders_server_tls t : renders (fmt_tls_accept t) (server_tls_pairs t).
Proof. destruct t; first [apply renders_lab | apply renders_cons, renders_lab]. Qed.
Lemma renders_server m p : renders (fmt_server m p) (server_pairs m p).
Proof. unfold fmt_server. repeat apply renders_cons. apply renders_lab. Qed.
Lemma renders_policy p : renders (fmt_policy p) (policy_pairs p).
Proof.
  unfold fmt_policy, policy_pairs.
  change [l "route_group" (group (p_route p)); l "route_kind" (kind (p_route p)); l "route_name" (name (p_route p));
     l "authz_group" (group (p_authz p)); l "authz_kind" (kind (p_authz p)); l "authz_name" (name (p_authz p))]
    with ([l "route_group" (group (p_route p)); l "route_kind" (kind (p_route p)); l "route_name" (name (p_route p))] ++
     [l "authz_group" (group (p_authz p)); l "authz_kind" (kind (p_authz p)); l "authz_name" (name (p_authz p))]).
  rewrite app_assoc. repeat apply renders_both.
  - apply renders_server.
  - repeat apply renders_cons. apply renders_lab.
  - repeat apply renders_cons. apply renders_lab.
Qed.
Lemma renders_stack k : renders (fmt_stack k) (stack_pairs k).
Proof.
  unfold fmt_stack, stack_pairs. apply renders_app; [apply renders_direction|]. apply renders_cons_app, renders_lab.
Qed.
Lemma renders_class c : renders (fmt_class c) (class_pairs c).
Proof. destruct c; repeat apply renders_cons; apply renders_lab. Qed.
Lemma renders_status s : renders (fmt_status s) (status_pairs (Some s)).
Proof. apply renders_lab. Qed.
Lemma renders_and_status t ls st : renders t ls ->
  renders (and_option t (option_map fmt_status st)) (ls ++ status_pairs st).
Proof.
  intros H. destruct st as [s|]; cbn [option_map and_option].
  - apply renders_app; [exact H|apply renders_status].
  - cbn. rewrite app_nil_r. exact H.
Qed.
Lemma renders_status_and t ls st : renders t ls ->
  renders (option_and (option_map fmt_status st) t) (status_pairs st ++ ls).
Proof.
  intros H. destruct st as [s|]; cbn [option_map option_and]; [|exact H].
  apply renders_app; [apply renders_status|exact H].
Qed.

Lemma prefix_labels_text prefix ls :
  match prefix_labels prefix ls with
  | Some t => renders t (prefixed_pairs prefix ls)
  | None => ls = []
  end.
Proof.
  destruct ls as [|[k v] ls]; [reflexivity|]. cbn [prefix_labels]. split; [easy|].
  unfold prefixed_pairs. revert k v. induction ls as [|[k' v'] ls IH]; intros k v.
  - cbn [flat_map map fst snd]. rewrite app_nil_r. reflexivity.
  - cbn [flat_map map fst snd] in *. rewrite <- app_assoc. rewrite IH. reflexivity.
Qed.
Lemma renders_prefixed t ls prefix labels : renders t ls ->
  renders (t ++ match prefix_labels prefix labels with Some x => [44] ++ x | None => [] end)
    (ls ++ prefixed_pairs prefix labels).
Proof.
  intros H. pose proof (prefix_labels_text prefix labels) as P. destruct (prefix_labels prefix labels) as [x|].
  - apply renders_app; assumption.
  - subst. cbn. rewrite !app_nil_r. exact H.
Qed.
Lemma renders_authority a t ls : renders t ls ->
  renders ((match a with Some a => fmt_authority a ++ [44] | None => [] end) ++ t) (authority_pairs a ++ ls).
Proof.
  intros H. destruct a as [a|]; [|exact H]. rewrite <- app_assoc. apply renders_app; [apply renders_lab|exact H].
Qed.

Section Display.
  Variable show_sock : sock -> bytes.
  Variable show_ip : list N -> bytes.

  Lemma renders_target a : renders (fmt_target show_sock show_ip a) (target_pairs show_sock show_ip a).
  Proof. unfold fmt_target. repeat apply renders_cons. apply renders_lab. Qed.
  Lemma renders_out e : renders (fmt_out_endpoint show_sock show_ip e) (out_endpoint_pairs show_sock show_ip e).
  Proof.
    unfold fmt_out_endpoint, out_endpoint_pairs. apply renders_authority. rewrite app_assoc. apply renders_prefixed.
    apply renders_both; [apply renders_target|apply renders_client_tls].
  Qed.
  Lemma renders_endpoint k : renders (fmt_endpoint show_sock show_ip k) (endpoint_pairs show_sock show_ip k).
  Proof.
    destruct k as [e|e]; apply renders_both; try apply renders_direction; [|apply renders_out].
    unfold fmt_in_endpoint, in_endpoint_pairs. apply renders_authority. rewrite app_assoc.
    apply renders_both; [|apply renders_policy]. apply renders_both; [apply renders_target|apply renders_server_tls].
  Qed.
  Lemma renders_route k : renders (fmt_route_labels k) (route_pairs k).
  Proof.
    unfold fmt_route_labels, route_pairs.
    set (d := fmt_direction (r_direction k)). set (t := lab (bs "dst") (show_name (r_addr k))).
    replace (d ++ [44] ++ t ++ _) with ((d ++ [44] ++ t) ++ match prefix_labels (bs "rt") (r_labels k) with Some x => [44] ++ x | None => [] end)
      by now rewrite !app_assoc.
    rewrite (app_assoc (direction_pairs _)). apply renders_prefixed. apply renders_app; [apply renders_direction|apply renders_lab].
  Qed.
  Lemma renders_control k : renders (fmt_control show_sock k) (control_pairs show_sock k).
  Proof. apply renders_app; [apply renders_lab|apply renders_client_tls]. Qed.
  Lemma renders_key k : renders (fmt_key show_sock show_ip k) (key_pairs show_sock show_ip k).
  Proof.
    destruct k as [t a m p|a|e|]; cbn [fmt_key key_pairs]; rewrite <- !(app_assoc [44]);
      (apply renders_app; [apply renders_direction|]); rewrite <- app_assoc;
      (apply (renders_app (lab (bs "peer") _) _ [_] _); [apply renders_lab|]).
    - cbn [and_option]. rewrite (app_assoc (target_pairs _ _ _)). apply renders_app; [|apply renders_server].
      apply renders_both; [apply renders_target|apply renders_server_tls].
    - cbn [and_option]. apply renders_both; [apply renders_target|apply renders_server_tls].
    - apply renders_out.
    - apply renders_client_tls.
  Qed.

  (* ---- families ---- *)

  Definition counter_samples {K V} (n : bytes) (pairs : K -> list pair) (get : V -> N) (reg : list (K * V)) : list sample :=
    map (fun e => Sample n (pairs (fst e)) (get (snd e))) reg.

  Fixpoint bucket_samples (n : bytes) (ls : list pair) (total : N) (bounds : list (option N)) (counts : list N) : list sample :=
    match bounds, counts with
    | b :: bounds, c :: counts =>
        let total := counter_add total c in
        Sample (n ++ bs "_bucket"%string) (ls ++ [l "le" (le_text b)]) (to_f64 total) :: bucket_samples n ls total bounds counts
    | _, _ => []
    end.
  Fixpoint bucket_total (total : N) (bounds : list (option N)) (counts : list N) : N :=
    match bounds, counts with
    | _ :: bounds, c :: counts => bucket_total (counter_add total c) bounds counts
    | _, _ => total
    end.
  Definition histogram_samples (n : bytes) (ls : list pair) (h : list N * N) : list sample :=
    bucket_samples n ls 0 LATENCY (fst h) ++
    [Sample (n ++ bs "_count"%string) ls (to_f64 (bucket_total 0 LATENCY (fst h)));
     Sample (n ++ bs "_sum"%string) ls (to_f64 (snd h))].

  Definition status_samples {K} (n : bytes) (pairs : K -> list pair) (reg : list (K * http_metrics)) : list sample :=
    flat_map (fun e => flat_map (fun s => histogram_samples n (pairs (fst e) ++ status_pairs (fst s)) (s_latency (snd s)))
      (h_by_status (snd e))) reg.
  Definition class_samples {K} (n : bytes) (pairs : K -> list pair) (reg : list (K * http_metrics)) : list sample :=
    flat_map (fun e => flat_map (fun s => map (fun c =>
      Sample n (pairs (fst e) ++ status_pairs (fst s) ++ class_pairs (fst c)) (to_f64 (snd c)))
      (s_by_class (snd s))) (h_by_status (snd e))) reg.

  Definition http_families {K} (pairs : K -> list pair) (prefix : bytes) (latencies : bool) (reg : list (K * http_metrics)) : list family :=
    match reg with
    | [] => []
    | _ =>
        let n := prefixed prefix (bs "request_total"%string) in
        [Family n (bs "Total count of HTTP requests."%string) COUNTER (counter_samples n pairs (fun m => to_f64 (h_total m)) reg)] ++
        (if latencies then
           let n := prefixed prefix (bs "response_latency_ms"%string) in
           [Family n (bs "Elapsed times between a request's headers being received and its response stream completing"%string)
              HISTOGRAM (status_samples n pairs reg)]
         else []) ++
        let n := prefixed prefix (bs "response_total"%string) in
        [Family n (bs "Total count of HTTP responses."%string) COUNTER (class_samples n pairs reg)]
    end.
  Definition retry_families {K} (pairs : K -> list pair) (prefix : bytes) (reg : list (K * (N * N))) : list family :=
    match reg with
    | [] => []
    | _ =>
        let n := prefixed prefix (bs "retryable_total"%string) in
        [Family n (bs "Total count of retryable HTTP responses."%string) COUNTER
          (flat_map (fun e => [Sample n (pairs (fst e)) (to_f64 (fst (snd e)));
             Sample n (pairs (fst e) ++ [l "skipped" (bs "no_budget"%string)]) (to_f64 (snd (snd e)))]) reg)]
    end.
  Definition eos_text (e : option bytes) : bytes := match e with Some e => e | None => [] end.
  Definition transport_families (reg : list (transport_key * tcp_metrics)) : list family :=
    match reg with
    | [] => []
    | _ =>
        let fam n h k get := Family n h k (counter_samples n (key_pairs show_sock show_ip) get reg) in
        [fam (bs "tcp_open_total"%string) (bs "Total count of opened connections"%string) COUNTER (fun m => to_f64 (c_opened m));
         fam (bs "tcp_open_connections"%string) (bs "Number of currently-open connections"%string) GAUGE c_open;
         fam (bs "tcp_read_bytes_total"%string) (bs "Total count of bytes read from peers"%string) COUNTER (fun m => to_f64 (c_read m));
         fam (bs "tcp_write_bytes_total"%string) (bs "Total count of bytes written to peers"%string) COUNTER (fun m => to_f64 (c_written m));
         Family (bs "tcp_close_total"%string) (bs "Total count of closed connections"%string) COUNTER
           (flat_map (fun e => map (fun x => Sample (bs "tcp_close_total"%string)
              (key_pairs show_sock show_ip (fst e) ++ [l "errno" (eos_text (fst x))]) (to_f64 (snd x))) (c_closed (snd e))) reg)]
    end.
  Definition export_families (m : export_metrics) : list family :=
    let fam n h v := Family n h COUNTER [Sample n [] (to_f64 v)] in
    [fam (bs "opentelemetry_span_export_streams"%string) (bs "Total count of opened span export streams"%string) (x_streams m);
     fam (bs "opentelemetry_span_export_requests"%string) (bs "Total count of span export request messages"%string) (x_requests m);
     fam (bs "opentelemetry_span_exports"%string) (bs "Total count of spans exported"%string) (x_spans m)].
  Definition ready_samples (ready : bytes) (get : stack_metrics -> N) (reg : list (stack_labels * stack_metrics)) : list sample :=
    counter_samples (bs "stack_poll_total"%string) (fun k => stack_pairs k ++ [l "ready" ready]) (fun m => to_f64 (get m)) reg.
  Definition stack_families (reg : list (stack_labels * stack_metrics)) : list family :=
    match reg with
    | [] => []
    | _ =>
        let fam n h get := Family n h COUNTER (counter_samples n stack_pairs (fun m => to_f64 (get m)) reg) in
        [fam (bs "stack_create_total"%string) (bs "Total number of services created"%string) t_created;
         fam (bs "stack_drop_total"%string) (bs "Total number of services dropped"%string) t_dropped;
         Family (bs "stack_poll_total"%string) (bs "Total number of stack polls"%string) COUNTER
           (ready_samples (bs "true"%string) t_ready reg ++ ready_samples (bs "false"%string) t_not_ready reg ++
            ready_samples (bs "error"%string) t_failed reg);
         fam (bs "stack_poll_total_ms"%string)
           (bs "Total number of milliseconds this service has spent awaiting readiness"%string) t_millis]
    end.
  Definition families (c : counted) : list family :=
    http_families (endpoint_pairs show_sock show_ip) [] true (g_endpoint c) ++
    http_families route_pairs (bs "route"%string) true (g_route c) ++
    retry_families route_pairs (bs "route"%string) (g_retry c) ++
    http_families route_pairs (bs "route_actual"%string) false (g_actual c) ++
    http_families (control_pairs show_sock) (bs "control"%string) true (g_control c) ++
    transport_families (g_transport c) ++ export_families (g_export c) ++ stack_families (g_stack c).

  (* ---- the text ---- *)

  Definition sample_page (ss : list sample) : bytes := page (map Value_of ss).
  Lemma sample_page_app a b : sample_page (a ++ b) = sample_page a ++ sample_page b.
  Proof. unfold sample_page. now rewrite map_app, page_app. Qed.
  Lemma sample_page_flat {A} (f : A -> list sample) xs : sample_page (flat_map f xs) = flat_map (fun x => sample_page (f x)) xs.
  Proof. induction xs as [|x xs IH]; [reflexivity|]. cbn [flat_map]. now rewrite sample_page_app, IH. Qed.
  Lemma sample_page_map {A} (f : A -> sample) xs : sample_page (map f xs) = flat_map (fun x => sample_page [f x]) xs.
  Proof. induction xs as [|x xs IH]; [reflexivity|]. cbn [map flat_map]. change (f x :: map f xs) with ([f x] ++ map f xs).
    now rewrite sample_page_app, IH. Qed.

  Lemma labeled n t ls v : renders t ls -> fmt_value_labeled n t v = sample_page [Sample n ls v].
  Proof.
    intros [N ->]. unfold sample_page, page, fmt_value_labeled. cbn [map flat_map line_text]. unfold sample_line.
    cbn [m_labels m_name m_value]. destruct ls; [easy|]. rewrite app_nil_r. now rewrite <- !app_assoc.
  Qed.
  Lemma unlabeled n v : fmt_value n v = sample_page [Sample n [] v].
  Proof.
    unfold sample_page, page, fmt_value. cbn [map flat_map line_text]. unfold sample_line.
    cbn [m_labels m_name m_value]. rewrite app_nil_r. now rewrite <- !app_assoc.
  Qed.
  Lemma flat_map_same {A B} (f g : A -> list B) xs : (forall x, f x = g x) -> flat_map f xs = flat_map g xs.
  Proof. intros H. induction xs as [|x xs IH]; [reflexivity|]. cbn. now rewrite H, IH. Qed.

  Lemma text_buckets n t ls bounds : renders t ls -> forall counts total,
    fmt_buckets n t total bounds counts = (sample_page (bucket_samples n ls total bounds counts), bucket_total total bounds counts).
  Proof.
    intros R. induction bounds as [|b bounds IH]; intros counts total; [reflexivity|].
    destruct counts as [|c counts]; [reflexivity|]. cbn [fmt_buckets bucket_samples bucket_total]. rewrite IH.
    f_equal. unfold fmt_counter. rewrite (labeled _ _ (ls ++ [l "le" (le_text b)])).
    - now rewrite <- sample_page_app.
    - apply renders_both; [exact R|apply renders_lab].
  Qed.
  Lemma text_histogram n t ls h : renders t ls -> fmt_histogram n t h = sample_page (histogram_samples n ls h).
  Proof.
    intros R. unfold fmt_histogram, histogram_samples. rewrite (text_buckets n t ls) by exact R.
    unfold fmt_counter. rewrite !(labeled _ t ls) by exact R. rewrite <- !sample_page_app. reflexivity.
  Qed.
  Lemma text_by {K V} n (fmt : K -> bytes) pairs (get : V -> N) reg : (forall k, renders (fmt k) (pairs k)) ->
    fmt_by fmt n get reg = sample_page (counter_samples n pairs (fun m => to_f64 (get m)) reg).
  Proof.
    intros R. unfold fmt_by, counter_samples. rewrite sample_page_map. apply flat_map_same. intros [k m].
    now apply labeled.
  Qed.
  Lemma text_gauge_by {K V} n (fmt : K -> bytes) pairs (get : V -> N) reg : (forall k, renders (fmt k) (pairs k)) ->
    fmt_gauge_by fmt n get reg = sample_page (counter_samples n pairs get reg).
  Proof.
    intros R. unfold fmt_gauge_by, counter_samples. rewrite sample_page_map. apply flat_map_same. intros [k m].
    now apply labeled.
  Qed.
  Lemma text_by_status {K} n (fmt : K -> bytes) pairs reg : (forall k, renders (fmt k) (pairs k)) ->
    fmt_by_status fmt n reg = sample_page (status_samples n pairs reg).
  Proof.
    intros R. unfold fmt_by_status, status_samples. rewrite sample_page_flat. apply flat_map_same. intros [k m].
    rewrite sample_page_flat. apply flat_map_same. intros [st s]. apply text_histogram. apply renders_and_status, R.
  Qed.
  Lemma text_by_class {K} n (fmt : K -> bytes) pairs reg : (forall k, renders (fmt k) (pairs k)) ->
    fmt_by_class fmt n reg = sample_page (class_samples n pairs reg).
  Proof.
    intros R. unfold fmt_by_class, class_samples. rewrite sample_page_flat. apply flat_map_same. intros [k m].
    rewrite sample_page_flat. apply flat_map_same. intros [st s]. rewrite sample_page_map. apply flat_map_same.
    intros [c n']. apply labeled. apply renders_both; [apply R|]. apply renders_status_and, renders_class.
  Qed.

  Definition family_page (f : family) : bytes := page (family_lines f).
  Lemma family_text n h k ss : fmt_help n h k ++ sample_page ss = family_page (Family n h k ss).
  Proof.
    unfold family_page, family_lines, sample_page, fmt_help, page. cbn [f_name f_help f_kind f_samples flat_map line_text].
    rewrite <- !app_assoc. reflexivity.
  Qed.
  Definition families_page (fs : list family) : bytes := flat_map family_page fs.

  Lemma text_http {K} (fmt : K -> bytes) pairs prefix lat reg : (forall k, renders (fmt k) (pairs k)) ->
    fmt_http fmt prefix lat reg = families_page (http_families pairs prefix lat reg).
  Proof.
    intros R. unfold fmt_http, http_families. destruct reg as [|e reg]; [reflexivity|].
    set (r := e :: reg). rewrite (text_by _ fmt pairs) by exact R. rewrite (text_by_status _ fmt pairs) by exact R.
    rewrite (text_by_class _ fmt pairs) by exact R. rewrite !family_text. rewrite app_assoc, family_text.
    unfold families_page. destruct lat; cbn [app flat_map]; rewrite ?app_nil_r; reflexivity.
  Qed.
  Lemma text_retries {K} (fmt : K -> bytes) pairs prefix reg : (forall k, renders (fmt k) (pairs k)) ->
    fmt_retries fmt prefix reg = families_page (retry_families pairs prefix reg).
  Proof.
    intros R. unfold fmt_retries, retry_families. destruct reg as [|e reg]; [reflexivity|]. set (r := e :: reg).
    unfold families_page. cbn [flat_map]. rewrite app_nil_r, <- family_text. f_equal.
    rewrite sample_page_flat. apply flat_map_same. intros [k [a b]]. cbn [fst snd]. unfold fmt_counter.
    rewrite (labeled _ (fmt k) (pairs k)) by apply R.
    rewrite (labeled _ (both (fmt k) _) (pairs k ++ [l "skipped" (bs "no_budget")])).
    - now rewrite <- sample_page_app.
    - apply renders_both; [apply R|apply renders_lab].
  Qed.
  Lemma text_transport reg : fmt_transport show_sock show_ip reg = families_page (transport_families reg).
  Proof.
    unfold fmt_transport, transport_families. destruct reg as [|e reg]; [reflexivity|]. set (r := e :: reg).
    rewrite !(text_by _ _ (key_pairs show_sock show_ip)) by apply renders_key.
    rewrite (text_gauge_by _ _ (key_pairs show_sock show_ip)) by apply renders_key.
    unfold families_page. cbn [flat_map]. rewrite app_nil_r, <- !family_text. rewrite <- !app_assoc. do 10 f_equal.
    rewrite sample_page_flat. apply flat_map_same. intros [k m]. rewrite sample_page_map. apply flat_map_same.
    intros [x n]. apply labeled. apply renders_both; [apply renders_key|apply renders_lab].
  Qed.
  Lemma text_export m : fmt_export m = families_page (export_families m).
  Proof.
    unfold fmt_export, export_families, families_page. cbn [flat_map]. rewrite !unlabeled, !family_text, app_nil_r. reflexivity.
  Qed.
  Lemma text_stacks reg : fmt_stacks reg = families_page (stack_families reg).
  Proof.
    unfold fmt_stacks, stack_families. destruct reg as [|e reg]; [reflexivity|]. set (r := e :: reg).
    rewrite !(text_by _ fmt_stack stack_pairs) by apply renders_stack.
    assert (P : forall ready get, fmt_by (fun l0 => both (fmt_stack l0) (lab (bs "ready") ready)) (bs "stack_poll_total") get r =
      sample_page (ready_samples ready get r)).
    { intros ready get. apply text_by. intros k. apply renders_both; [apply renders_stack|apply renders_lab]. }
    rewrite !P. unfold families_page. cbn [flat_map]. rewrite app_nil_r, <- !family_text, !sample_page_app.
    rewrite <- !app_assoc. reflexivity.
  Qed.

  Lemma families_page_app a b : families_page (a ++ b) = families_page a ++ families_page b.
  Proof. apply flat_map_app. Qed.
  Lemma text_report c : report show_sock show_ip c = page (flat_map family_lines (families c)).
  Proof.
    transitivity (families_page (families c)).
    - unfold report, families. rewrite !families_page_app.
      rewrite (text_http _ (endpoint_pairs show_sock show_ip)) by apply renders_endpoint.
      rewrite !(text_http _ route_pairs) by apply renders_route.
      rewrite (text_retries _ route_pairs) by apply renders_route.
      rewrite (text_http _ (control_pairs show_sock)) by apply renders_control.
      now rewrite text_transport, text_export, text_stacks.
    - unfold families_page, family_page. induction (families c) as [|f fs IH]; [reflexivity|]. cbn [flat_map].
      now rewrite page_app, IH.
  Qed.
End Display.
