*.vo
*.vos
*.vok
*.glob
*.aux
.*.aux
.*.cache
Makefile
Makefile.conf
.Makefile.d
