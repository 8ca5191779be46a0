import json
M=[]
def m(file,definition,old,new,edit,claim,**k): M.append(dict(file=file,definition=definition,old=old,new=new,edit=edit,claim=claim,**k))
R='Reader.v'
m(R,'glb_loop','if n <=? line_used + 1 then grow','if n <=? line_used then grow','line buffer grown one byte too late','C21, C41: get_line_buffer writes past its buffer')
m(R,'glb_loop','put (S line_used) NUL ;; ret (S line_used, S consumed)','put line_used NUL ;; ret (S line_used, S consumed)','newline overwritten by the terminator','C21: the newline is lost')
m(R,'glb_loop','[] => put line_used NUL ;; ret (line_used, consumed)','[] => put line_used NUL ;; ret (line_used, S consumed)','one byte too many consumed at the end of the data','C29, C41')
m(R,'get_line_buffer','[] => ret (None, 0)','[] => ret (Some 0, 0)','end of data reported as an empty line','C25, C39: eof never true')
m(R,'get_line_fgets','  put 0 NUL ;;\n  fgets_loop','  fgets_loop','portable reader does not clear the old line','C23: old contents are prepended')
m(R,'fgets_loop','(if n <=? buff_used + line_used then grow (n * 2)','(if n <? buff_used + line_used then grow (n * 2)','portable reader: terminator outside the buffer','C23, C41')
m(R,'fgets_loop','ret (if line_used =? 0 then None else Some line_used, [])','ret (None, [])','portable reader drops an unterminated last line','C23, C25')
m(R,'remove_eol','if Ascii.eqb b CR then rupd (rset_crlf true) ;; ret j','if Ascii.eqb b CR then rupd (rset_crlf true) ;; ret k','CR of CRLF not removed','C24')
m(R,'remove_eol','if negb (Ascii.eqb a LF) then rupd (rset_crlf false) ;; ret ssize','if negb (Ascii.eqb a LF) then rupd (rset_crlf false) ;; ret k','last byte of an unterminated last line removed','C24, C25')
m(R,'remove_eol','                     else rupd (rset_crlf false) ;; ret k\n','                     else ret k\n','crlf_ not reset by an LF line','C31: LF inside a quoted field becomes CRLF after an earlier CRLF')
m(R,'remove_eol','        on_lp w (put size NUL) ;;\n        ret size','        ret size','line not terminated after removing the line end','C24')
m(R,'read_next_loop','(if 0 <? r_nlsz r then on_lp NextLine (put 0 NUL) else ret tt) ;;','','old line left in the buffer at end of data','C30/C44 (raw header of an empty source), C41')
m(R,'read_next_loop','rupd (fun r => rset_chars (r_curr r) r) ;;\n      o <- get_line','o <- get_line','position() not updated','C29',)
m(R,'read_next_loop','if c_ignempty c && (size =? 0) then read_next_loop f','if c_ignempty c && (ssize =? 1) then read_next_loop f','ignore_empty does not skip lines that are only CRLF','C27')
m(R,'read_next_loop','if c_ignempty c && (size =? 0) then read_next_loop f','if (size =? 0) then read_next_loop f','empty lines skipped without ignore_empty','C27')
m(R,'read_next_loop','rupd (fun r => rset_line (S (r_line r)) r) ;;\n      r <- get','r <- get','line() not incremented','C29')
m(R,'read_next','  on_nconv cv_clear_error ;;\n','','error of an earlier row left in the converter','C26')
m(R,'update','(r_nl r) (r_buf r) (r_help r) (r_nconv r) (r_conv r)','(r_nl r) (r_buf r) (r_help r) (r_conv r) (r_nconv r)','update swaps the buffers but not the converters','C25, C41')
m(R,'update','(r_nlsz r) (r_bufsz r) (r_helpsz r)','(r_bufsz r) (r_nlsz r) (r_helpsz r)','update does not swap the buffer sizes','C41')
m(R,'multiline_limit_reached','if c_mlsize c <=? limit then','if c_mlsize c <? limit then','multiline limit off by one','C32')
m(R,'multiline_limit_reached','else ret (S limit, false)','else ret (limit, false)','multiline limit never counted','C32')
m(R,'escaped_eol','ret (Nat.even (S k))','ret (0 <? k)','two escapes before the line end count as one','C33')
m(R,'count_escapes','if escape_match c a then k <- count_escapes j ;; ret (S k) else ret 0','if escape_match c a then ret 1 else ret 0','only the last character is looked at','C33')
m(R,'undo_remove_eol','put_all size [CR; LF]','put_all size [LF; CR]','CR and LF restored in the wrong order','C31')
m(R,'undo_remove_eol','if r_crlf r && (size + 2 <=? r_nlsz r) then','if false then','CRLF inside a field restored as LF','C31')
m(R,'realloc_concat','grow (r_nlsize r + second_size + 3)','grow (r_nlsize r + second_size)','joined line buffer too small','C41')
m(R,'realloc_concat','copy_between (b_cells h) (second_size + 1)','copy_between (b_cells h) second_size','terminator not copied','C31, C41')
m(R,'append_next_line_to_buffer','  undo_remove_eol ;;\n','','newline inside a field lost','C31, C33')
m(R,'append_next_line_to_buffer','rupd (fun r => rset_line (S (r_line r)) r) ;;\n      next_size','next_size','continuation lines not counted','C29')
m(R,'quote_loop','''            '(go_on, limit) <- escape_part limit ;;
            if go_on : bool then''','''            '(go_on, _) <- escape_part limit ;;
            if go_on : bool then''','limit not carried through escaped line ends in quotes','C32')
m(R,'quote_loop','rupd (rset_nlsize (r_nlsize r - cv_size_shifted (r_nconv r))) ;;','','removed escapes not subtracted before appending','C31, C41')
m(R,'quote_loop','else on_nconv (handle_error_unterminated_quote c)','else ret tt','quoted field open at the end of the data accepted','C44, C25: the row must be an error')
m(R,'escape_loop','else on_nconv (handle_error_unterminated_escape c) ;; ret (false, limit)','else ret (true, limit)','escape at the end of the data accepted','C33')
m(R,'get_buffer','range_str (cells_of (r_nl r)) 0 (r_nlsize r)','range_str (cells_of (r_nl r)) 0 (r_nlsize r - 1)','raw header without its last byte','C34')
m(R,'reader_move','(r_curr other) (r_crlf other) (r_line other) (r_chars other) (r_nlsize other) (r_fresh other),\n   mkR None None None conv_init conv_init','(r_curr other) (r_crlf other) (r_line other) (r_chars other) 0 (r_fresh other),\n   mkR None None None conv_init conv_init','next_line_size_ not moved','C40',nth=1)
m(R,'reader_move_assign','(r_curr other) (r_crlf other) (r_line other) (r_chars other) (r_nlsize other) (r_fresh other),\n   mkR None None None conv_init conv_init','(r_curr other) (r_crlf this) (r_line other) (r_chars other) (r_nlsize other) (r_fresh other),\n   mkR None None None conv_init conv_init','crlf_ not moved by assignment','C40',nth=2)
m(R,'reader_move','mkR None None None conv_init conv_init','mkR (r_buf other) None None conv_init conv_init','moved-from reader keeps its buffer','C40: double free',nth=1)
P='Parser.v'
m(P,'read_line','pupd (pset_eof (negb ok))','pupd (pset_eof ok)','eof inverted','C25')
m(P,'construct','if c_ignhdr c then ignore_next ;; ret tt','if c_ignhdr c then ret tt','ignore_header ignored','C28')
m(P,'construct','if c_ignhdr c then ignore_next ;; ret tt','if c_ignhdr c then ignore_next ;; ignore_next ;; ret tt','ignore_header skips two lines','C28')
m(P,'construct','    pupd (pset_eof true).','    ret tt.','unusable source not at eof','C42')
m(P,'get_next','    handle_error_invalid_conversion ;;\n    read_line ;;\n    ret (defaults es)','    handle_error_invalid_conversion ;;\n    ret (defaults es)','row that failed to split not passed','C25, C26')
m(P,'get_next','    p_clear_error ;;\n    if p_eof p','    if p_eof p','error of the previous row not cleared','C26')
m(P,'get_next','if p_eof p then p_error msg_eof ;; ret (defaults es)','if p_eof p then ret (defaults es)','reading past the end not reported','C30')
m(P,'get_next','catch (on_rdr (parse c cap)) (fun e => read_line ;; decorate_rethrow e)','catch (on_rdr (parse c cap)) (fun e => decorate_rethrow e)','row that threw while splitting not passed','C26')
m(P,'get_next','                (fun e => read_line ;; decorate_rethrow e)','                (fun e => decorate_rethrow e)','row that threw while converting not passed','C26')
m(P,'get_next','(if negb (cv_valid c (r_conv (p_rdr p))) then handle_error_invalid_conversion else ret tt) ;;\n          read_line','read_line','failed conversion not reported','C25')
m(P,'handle_error_invalid_conversion','dec (r_line (p_rdr p)) ++ S2 ": "','dec (S (r_line (p_rdr p))) ++ S2 ": "','line number in messages off by one','C44 (messages)')
m(P,'decorate_rethrow','dec (p_line p)','dec (r_line (p_rdr p))','line number in exception texts off by one','C44 (messages)')
m(P,'add_fields','Some _ => p_error (msg_duplicate f) ;; pupd (pset_header [])','Some _ => p_error (msg_duplicate f)','header kept after a duplicate','C34')
m(P,'field_exists','  if negb (p_valid p) then ret false\n','  if false then ret false\n','field_exists does not look at the error','C34')
m(P,'find_columns','if negb (count_str f all =? 1) then','if false then','repeated fields accepted by use_fields','C36')
m(P,'find_columns','match o with Some l => ret (Some (i :: l))','match o with Some l => ret (Some (l ++ [i]))','columns selected in reverse order','C35')
m(P,'use_fields','on_rdr (rupd (fun r => rset_nconv (vup_map mapping n (r_nconv r)) r)) ;;','','only one of the two converters gets the selection','C35')
m(P,'use_fields','if p_line p =? 0 then ignore_next ;; ret tt else ret tt','ret tt','header row delivered as data','C35')
m(P,'use_fields','if p_line p =? 0 then ignore_next ;; ret tt else ret tt','ignore_next ;; ret tt','use_fields later on skips a row','C35, C44')
m(P,'use_fields','    | [] => p_error msg_use_fields\n','    | [] => ret tt\n','use_fields without fields accepted','C36')
m(P,'use_fields','let n := length (p_header p) in','let n := length fs in','number of columns taken from the selection','C35')
m(P,'try_next','ret [if p_valid (fst t) then Some xs else None]','ret [Some xs]','failed alternative holds a value','C37')
m(P,'try_invoke','(if f arg then ret tt else on_p (p_error msg_failed_check))','(if f arg then on_p (p_error msg_failed_check) else ret tt)','check inverted','C38')
m(P,'or_else','value <- (if p_valid (fst t) then ret None','value <- (if false then ret None','or_else tried also after a success','C37')
m(P,'try_same','  p_clear_error ;;\n  xs','  xs','or_else does not clear the error first','C37')
m(P,'on_error','if p_valid (fst t) then ret tt\n','if negb (p_valid (fst t)) then ret tt\n','on_error called on success','C38')
m(P,'iter_next','if negb (i_live it) || p_eof p then ret (mkI false (i_value it))','if negb (i_live it) then ret (mkI false (i_value it))','iterator does not look at eof','C39')
m(P,'iter_begin','iter_next (mkI true zero)','ret (mkI true zero)','begin() does not read the first row','C39')
T='TypeTraits.v'
m(T,'remove_false_n','| t :: ts\' => cat_opt t (remove_false_n m ts\')','| t :: ts\' => remove_false_n m ts\'','every element removed','C43')
m(T,'tup_cat','| Tup x, Tup y => Some (Tup (x ++ y))\n  | t, Tup y => Some (Tup (t :: y))','| Tup x, Tup y => Some (Tup (x ++ y))\n  | t, Tup y => Some (Tup (y ++ [t]))','order reversed','C43')
m(T,'count_v','[t] => Some (if tr t then 1 else 0)','[t] => Some 1','a single type always counted','C43')
m(T,'filter_not','filter_if (negate tr) ts','filter_if tr ts','filter_not keeps what it should drop','C43')
m(T,'left_of','| 0, t :: _ => Some (Tup [t])','| 0, t :: _ => Some (Tup [])','left_of one short','C43')
m(T,'no_validator_tup','| [Tup [t]] => Some (base t)','| [Tup [t]] => Some (Tup [base t])','single result wrapped in a tuple','C43')
json.dump([x for x in M if x['old']],open('/verif/seeded/mut_reader.json','w'),indent=1)
print(len(M))
