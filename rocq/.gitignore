*.aux
*.d
*.glob
*.vo
*.vok
*.vos
.*.aux
.*.cache
.Makefile.d
CoqMakefile*
Makefile
Makefile.conf
