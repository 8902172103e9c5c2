module ZZ = Z
open M
let cascii c = let c = Char.code c in let b i = (c lsr i) land 1 = 1 in Ascii (b 0,b 1,b 2,b 3,b 4,b 5,b 6,b 7)
let cstr s = let r = ref EmptyString in for i = String.length s - 1 downto 0 do r := String (cascii s.[i], !r) done; !r
let rec ostr = function EmptyString -> "" | String (Ascii(a,b,c,d,e,f,g,h), r) ->
  let v x i = if x then 1 lsl i else 0 in
  String.make 1 (Char.chr (v a 0+v b 1+v c 2+v d 3+v e 4+v f 5+v g 6+v h 7)) ^ ostr r
let tab = Array.init 256 (fun i -> match of_N (ZZ.of_int i) with Some b -> b | None -> assert false)
let hexv c = match c with '0'..'9' -> Char.code c - 48 | 'a'..'f' -> Char.code c - 87 | 'A'..'F' -> Char.code c - 55 | _ -> failwith "hex"
let hexb s = List.init (String.length s/2) (fun i -> tab.(16*hexv s.[2*i]+hexv s.[2*i+1]))
let txtb s = List.init (String.length s) (fun i -> tab.(Char.code s.[i]))
let parse s =
  let p = ref 0 in
  let rec ws () = match s.[!p] with ' '|'\n'|'\t'|'\r' -> incr p; ws () | _ -> () in
  let str () = assert (s.[!p]='"'); let q = String.index_from s (!p+1) '"' in let r = String.sub s (!p+1) (q - !p-1) in p := q+1; r in
  let rec value key = ws (); match s.[!p] with
    | '"' -> let x = str () in JBytes (if key="label" then txtb x else hexb x)
    | 'n' -> p := !p+4; JNull
    | '[' -> incr p; ws (); if s.[!p]=']' then (incr p; JList []) else
        let rec go acc = let v = value key in ws (); if s.[!p]=',' then (incr p; go (v::acc)) else (incr p; List.rev (v::acc)) in JList (go [])
    | '{' -> incr p; ws (); if s.[!p]='}' then (incr p; JObject []) else
        let rec go acc = ws (); let k = str () in ws (); assert (s.[!p]=':'); incr p; let v = value k in ws ();
          if s.[!p]=',' then (incr p; go ((cstr k,v)::acc)) else (incr p; List.rev ((cstr k,v)::acc)) in JObject (go [])
    | _ -> let q = ref !p in while (match s.[!q] with '0'..'9'|'-' -> true | _ -> false) do incr q done;
        let r = String.sub s !p (!q - !p) in p := !q; JNum (ZZ.of_string r) in
  value ""
let read f = let ic = open_in_bin f in let s = really_input_string ic (in_channel_length ic) in close_in ic; s
let tests = ["deserialization",checkDeserialization;"tree-math",checkTreeMath;"messages",checkMessages;
 "crypto-basics",checkCryptoBasics real;"psk_secret",checkPSKSecret real;"key-schedule",checkKeySchedule real;
 "transcript-hashes",checkTranscriptHashes real;"secret-tree",checkSecretTree real;"tree-validation",checkTreeValidation real;
 "treekem",checkTreeKEM real;"tree-operations",checkTreeOperations real;"welcome",checkWelcome real;
 "message-protection",checkMessageProtection real;"passive-client-welcome",checkPassiveClient real;
 "passive-client-handling-commit",checkPassiveClient real;"passive-client-random",checkPassiveClient real]
let rec toS l = match l with [] -> "" | [x] -> ostr x | x::r -> ostr x ^ "; " ^ toS r
let () =
  let name = Sys.argv.(1) in
  let j = parse (read ("/repo/testdata/"^name^".json")) in
  let check = List.assoc name tests in
  let l = match j with JList l -> l | _ -> failwith "list" in
  let bad = ref 0 in
  List.iteri (fun i x ->
    let cs = match x with JObject f -> (match List.assoc_opt (cstr "cipher_suite") f with Some (JNum n) -> ZZ.to_int n | _ -> 0) | _ -> 0 in
    let t = Unix.gettimeofday () in
    let r = (try toS (check x) with e -> "EXN " ^ Printexc.to_string e) in
    let dt = Unix.gettimeofday () -. t in
    if r <> "" then (incr bad; Printf.printf "%s[%d] suite %d: %s (%.1fs)\n%!" name i cs (if String.length r > 300 then String.sub r 0 300 else r) dt)) l;
  Printf.printf "%s: %d vectors, %d failing\n" name (List.length l) !bad
