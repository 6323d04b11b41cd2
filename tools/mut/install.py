M=[
('Model/Install.v','if exists_ (now w) library_dir && negb update then','if false && exists_ (now w) library_dir && negb update then','install_arduino_library: an existing library is overwritten without update','C132'),
('Model/Install.v','if exists_ (now w) library_dir && negb update then','if exists_ (now w) library_dir then','install_arduino_library: update is ignored','C131,C133'),
('Model/Install.v','if exists_ (now w) library_dir && negb update then','if exists_ (now w) arduino && negb update then','install_arduino_library: the libraries directory must not exist','C131'),
('Model/Install.v','[pat_headers; n_version] library_dir','[pat_headers] library_dir','install_arduino_library: VERSION.txt is not copied','C131'),
('Model/Install.v','[pat_headers; n_version] library_dir','[pat_headers; n_version] arduino','install_arduino_library: the files go to the libraries directory itself','C131'),
('Model/Install.v','copy_patterns w include [pat_headers; n_version] library_dir','copy_patterns w arduino [pat_headers; n_version] library_dir','install_arduino_library: copies from the libraries directory','C131'),
('Model/Install.v','"eml_*.h"','"eml_*"','pat_headers: every file that begins with eml_ is copied','C131'),
('Model/Install.v','"eml_*.h"','"eml*.h"','pat_headers: also emlX.h','C131'),
('Model/Install.v','"eml_*.h"','"eml_?.h"','pat_headers: only one character','C131'),
('Model/Install.v','  let library_dir := arduino ++ [n_emlearn] in','  let library_dir := arduino ++ [n_version] in','install_arduino_library: wrong directory name','C131,C132'),
('Model/Install.v','(w, Done _) => (w, Done library_dir)','(w, Done _) => (w, Done arduino)','install_arduino_library: returns the libraries directory','C131'),
('Model/Install.v','let dst := dir ++ [basename f] in','let dst := dir ++ f in','copy: the name with its directories is appended','C131'),
('Model/Install.v','if path_eqb f dst then (w, Raised SameFile)','if path_eqb f dst && false then (w, Raised SameFile)','copy: a file is copied onto itself (emptied first)','C131,C133'),
('Model/Install.v','write_bytes (become w (put (now w) p (File []))) p [] content.','write_bytes (become w (put (now w) p (File []))) p [] (tl content).','write_file: the first byte is lost','C131,C134'),
('Model/Install.v','write_bytes (become w (put (now w) p (File []))) p [] content.','write_bytes w p [] content.','write_file: an empty file is not created','C131'),
('Model/Install.v','  | b :: rest => write_bytes (become w (put (now w) p (File (done_ ++ [b])))) p (done_ ++ [b]) rest','  | b :: rest => write_bytes (become w (put (now w) p (File (b :: done_)))) p (b :: done_) rest','write_bytes: bytes in reverse','C131,C134'),
('Model/Install.v','  | b :: rest => write_bytes (become w (put (now w) p (File (done_ ++ [b])))) p (done_ ++ [b]) rest','  | b :: rest => write_bytes (become w (put (now w) p (File [b]))) p (done_ ++ [b]) rest','write_bytes: only the last byte stays','C131,C134'),
('Model/Install.v','  | f :: files => match copy w f dir with (w, Done _) => copy_all w files dir | (w, Raised e) => (w, Raised e) end','  | f :: files => match copy w f dir with (w, Done _) => (w, Done tt) | (w, Raised e) => copy_all w files dir end','copy_all: stops after the first file','C131'),
('Model/Install.v','  | f :: files => match copy w f dir with (w, Done _) => copy_all w files dir | (w, Raised e) => (w, Raised e) end','  | f :: files => match copy w f dir with (w, _) => copy_all w files dir end','copy_all: errors of copy are swallowed','C131'),
('Model/Install.v','      | (w, Done _) => copy_patterns w include patterns dir\n      | (w, Raised e) => (w, Raised e)','      | (w, _) => copy_patterns w include patterns dir','copy_patterns: errors are swallowed','C131'),
('Model/Install.v','  if exists_ (now w) p then (w, Done tt) else mkdir w p.','  if isdir (now w) p then (w, Done tt) else (w, Raised FileNotFound).','ensure_dir_single: no directory is created','C131'),
('Model/Install.v','  if exists_ (now w) p then (w, Done tt) else mkdir w p.','  mkdir w p.','ensure_dir_single: an existing directory is an error','C131,C133'),
('Model/Install.v','      | Some Dir => (become w (put (now w) p Dir), Done tt)','      | Some Dir => (become w (put (now w) (parent p) Dir), Done tt)','mkdir: the wrong directory','C131'),
('Model/Install.v','      | None => (w, Raised FileNotFound)\n      end\n  end.','      | None => (become w (put (now w) p Dir), Done tt)\n      end\n  end.','mkdir: without a parent directory','C131'),
('Model/Install.v','match_tokens (tokens (length pat) pat) t && (hidden pat || negb (hidden t)).','match_tokens (tokens (length pat) pat) t && false && (hidden pat || negb (hidden t)).','fnmatch: nothing matches','C131,C134'),
('Model/Install.v','| TStar :: ts => star_match (match_tokens ts) t','| TStar :: ts => match_tokens ts t','match_tokens: a star matches only the empty text','C131,C134'),
('Model/Install.v','else if exists_ s (d ++ [pat]) then [d ++ [pat]] else []) dirs.','else [d ++ [pat]]) dirs.','glob_step: a name without magic is returned even if it is not there','C131'),
]
